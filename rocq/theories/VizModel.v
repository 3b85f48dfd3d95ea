(** Model of the page that shows a model in a notebook: soil/visualization.py:17-110. *)
From Coq Require Import List Bool Arith String.
From Verif Require Import PyDict.
Import ListNotations.

Section Viz.
(** Values of parameters with [==], models, the world in which models are made (with the number of steps of each), functions that draw and
    names of measures. *)
Context {V M W F : Type} (veq : V -> V -> bool) (make : dict string V -> W -> W * M) (steps_of : M -> W -> nat) (advance : M -> W -> W).

(** What is kept between renders: the state of [use_state] (lines 64-66), the counter of resets (line 75), the model of [use_memo]
    with its dependencies (lines 76-78), the step that is shown (line 60) and the model of the controller (line 22); and the parameters
    that the function of lines 80-81 has seen, those of the last render. *)
Record page := Page {
  pg_params : dict string V; pg_seen : dict string V; pg_reset : nat; pg_memo : option (list V * nat * M); pg_step : nat; pg_controller : option M }.

(** Lines 63-66, in the first render: the fixed parameters and the initial values of those that users can change. *)
Definition open_page (fixed user : dict string V) : page := Page (dupdate fixed user) (dupdate fixed user) 0 None 0 None.

(** [space_drawer] and [measures]. *)
Inductive drawer := Default | Custom (f : F) | NoSpace.
Inductive measure := Callable (f : F) | Attribute (n : string).
(** What is drawn of a model. *)
Inductive drawing := SpaceMatplotlib (m : M) | DrawnBy (f : F) (m : M) | Plotted (m : M) (n : string).

Fixpoint same_deps (a b : list V) : bool :=
  match a, b with [], [] => true | x :: a, y :: b => veq x y && same_deps a b | _, _ => false end.
(** Lines 69-78: the model, made again if the dependencies are not the same. *)
Definition use_model (p : page) (w : W) : page * W * M :=
  let deps := dvalues (pg_params p) in
  let fresh := let '(w, m) := make (pg_params p) w in
               (Page (pg_params p) (pg_params p) (pg_reset p) (Some (deps, pg_reset p, m)) 0 (Some m), w, m) in
  match pg_memo p with
  | Some (old, r, m) =>
      if same_deps old deps && (r =? pg_reset p)
      then (Page (pg_params p) (pg_params p) (pg_reset p) (Some (old, r, m)) (pg_step p) (pg_controller p), w, m)
      else fresh
  | None => fresh
  end.
(** Lines 93-102. *)
Definition draw_space (d : drawer) (m : M) : list drawing :=
  match d with Default => [SpaceMatplotlib m] | Custom f => [DrawnBy f m] | NoSpace => [] end.
(** Lines 106-110. *)
Definition draw_measure (m : M) (x : measure) : drawing := match x with Callable f => DrawnBy f m | Attribute n => Plotted m n end.
(** Lines 32-110.  The drawings are None if the render fails: without [measures] line 105 is a TypeError. *)
Definition render (d : drawer) (measures : option (list measure)) (p : page) (w : W) : page * W * option (list drawing) :=
  let '(p, w, m) := use_model p w in
  (p, w, match measures with None => None | Some l => Some (draw_space d m ++ map (draw_measure m) l) end).

(** What happens to a page: a user changes a parameter (lines 80-81), resets or makes a step (buttons of mesa: the step shown is that of the
    model), and the page is rendered. *)
Inductive happening := Change (n : string) (v : V) | Reset | Step | Render.
Definition happen (d : drawer) (measures : option (list measure)) (pw : page * W) (h : happening) : page * W :=
  let '(p, w) := pw in
  match h with
  | Change n v => (Page (dset n v (pg_seen p)) (pg_seen p) (pg_reset p) (pg_memo p) (pg_step p) (pg_controller p), w)
  | Reset => (Page (pg_params p) (pg_seen p) (S (pg_reset p)) (pg_memo p) (pg_step p) (pg_controller p), w)
  | Step => match pg_memo p with
            | Some (_, _, m) => let w := advance m w in (Page (pg_params p) (pg_seen p) (pg_reset p) (pg_memo p) (steps_of m w) (pg_controller p), w)
            | None => (p, w)
            end
  | Render => let '(p, w, _) := render d measures p w in (p, w)
  end.
Definition happen_all (d : drawer) (measures : option (list measure)) (hs : list happening) (pw : page * W) : page * W :=
  fold_left (happen d measures) hs pw.

(** [JupyterViz], lines 25-29: a page with a controller of its own; None is the TypeError for a second argument [controller]. *)
Definition jupyter_viz (keywords : list string) (p : page) : option page := if existsb (String.eqb "controller") keywords then None else Some p.
End Viz.
Arguments page : clear implicits. Arguments drawer : clear implicits. Arguments measure : clear implicits.
Arguments drawing : clear implicits. Arguments happening : clear implicits.
