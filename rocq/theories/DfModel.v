(** Model of the data frames of an environment: soil/environment.py:125-139 ([agent_df] and [model_df]), soil/datacollection.py:5-19 with mesa's
    DataCollector, and soil/analysis.py:7-27 ([plot]).

    Simplifications: reporters raise nothing; every column can be drawn; the frames of pandas are lists of columns or of rows.  Equal times are
    compared with Python's [==] (pandas takes two NaN for the same). *)
From Coq Require Import ZArith List Bool Arith String.
From Verif Require Import Num PyDict RunModel.
Import ListNotations.
Local Open Scope string_scope.
Local Open Scope list_scope.

Section Df.
(** The values of the reporters of the user, and their comparison. *)
Context {V : Type}.
Variable veqb : V -> V -> bool.

(** What a collection sees of the model: [schedule.steps], [schedule.time], the agents, and what the reporters give for the model and
    for each agent. *)
Record snap := Snap { sn_steps : nat; sn_time : num; sn_agents : list nat; sn_model : string -> V; sn_agent : nat -> string -> V }.

(** A reporter of the model: one of the two of soil/datacollection.py:9-12, or one of the user. *)
Inductive rkind := KCount | KTime | KUser.
Definition report (sn : snap) (name : string) (k : rkind) : cell V :=
  match k with KCount => CCount (List.length (sn_agents sn)) | KTime => CTime (sn_time sn) | KUser => CUser (sn_model sn name) end.

(** mesa's DataCollector (the base of soil/datacollection.py:4): [model_reporters], [model_vars], [agent_reporters] and [_agent_records]. *)
Record dcol := DCol { dc_reps : dict string rkind; dc_vars : dict string (list (cell V)); dc_areps : list string; dc_recs : dict nat (list (nat * list V)) }.
(** mesa's [_new_model_reporter] and [_new_agent_reporter], which soil/environment.py:204-214 call. *)
Definition add_rep (c : dcol) (name : string) (k : rkind) : dcol :=
  DCol (dset name k (dc_reps c)) (dset name [] (dc_vars c)) (dc_areps c) (dc_recs c).
Definition add_arep (c : dcol) (name : string) : dcol :=
  DCol (dc_reps c) (dc_vars c) (if existsb (String.eqb name) (dc_areps c) then dc_areps c else dc_areps c ++ [name]) (dc_recs c).
(** soil/datacollection.py:5-19. *)
Definition new_dcol (mr ar : list string) : dcol :=
  let reps := map (fun n => (n, KUser)) mr in
  let reps := if dhas "agent_count" reps then reps else reps ++ [("agent_count", KCount)] in
  let reps := if dhas "time" reps then reps else reps ++ [("time", KTime)] in
  fold_left add_arep ar (fold_left (fun c p => add_rep c (fst p) (snd p)) reps (DCol [] [] [] [])).
(** mesa's [collect] (called in soil/environment.py:110, 195 and 285): a value more for each reporter of the model; the records of the agents
    of this number of steps. *)
Definition dcollect (c : dcol) (sn : snap) : dcol :=
  DCol (dc_reps c)
    (fold_left (fun vars p => match dget (fst p) vars with
                              | Some col => dset (fst p) (col ++ [report sn (fst p) (snd p)]) vars
                              | None => vars
                              end) (dc_reps c) (dc_vars c))
    (dc_areps c)
    (match dc_areps c with
     | [] => dc_recs c
     | _ => dset (sn_steps sn) (map (fun a => (a, map (sn_agent sn a) (dc_areps c))) (sn_agents sn)) (dc_recs c)
     end).

(** Results. *)
Inductive dexn := EValue | EKey | EUserWarning | EOther.
Inductive dres (A : Type) := DOk (x : A) | DRaise (e : dexn).
Arguments DOk {A}. Arguments DRaise {A}.
Definition dbind {A B} (x : dres A) (f : A -> dres B) : dres B := match x with DOk a => f a | DRaise e => DRaise e end.

(** Frames with one index. *)
Record frame := Frame { f_name : option string; f_index : list (cell V); f_cols : dict string (list (cell V)) }.
(** mesa's [get_model_vars_dataframe] (soil/environment.py:130 and 135): pandas refuses columns of different lengths. *)
Definition model_vars_frame (c : dcol) : dres frame :=
  match dc_vars c with
  | [] => DRaise EUserWarning
  | (_, col) :: rest =>
      if forallb (fun p => Nat.eqb (List.length (snd p)) (List.length col)) rest
      then DOk (Frame None (map CCount (seq 0 (List.length col))) (dc_vars c))
      else DRaise EValue
  end.
(** soil/environment.py:134-139: [reset_index] makes the index the first column, which must be new; [set_index] makes a column the index. *)
Definition model_df (steps : bool) (c : dcol) : dres frame :=
  dbind (model_vars_frame c) (fun f =>
    if steps then DOk f
    else if dhas "step" (f_cols f) then DRaise EValue
    else match dget "time" (f_cols f) with
         | Some ts => DOk (Frame (Some "time") ts (("step", f_index f) :: ddel "time" (f_cols f)))
         | None => DRaise EKey
         end).

(** Frames of agents: with an index of two levels. *)
Record aframe := AFrame { af_names : string * string; af_cols : list string; af_rows : list (cell V * nat * list (option V)) }.
(** mesa's [get_agent_vars_dataframe] (soil/environment.py:126): the rows in the order of their collection; pandas fills up those that were
    collected with fewer reporters, unless all are too short.  Without any row the frame has no index of two levels, on which both ways of
    [agent_df] fail. *)
Definition agent_rows (c : dcol) : list (nat * nat * list (option V)) :=
  flat_map (fun p => map (fun r => (fst p, fst r, map Some (snd r) ++ repeat None (List.length (dc_areps c) - List.length (snd r)))) (snd p)) (dc_recs c).
Definition agent_vars_rows (c : dcol) : dres (list (nat * nat * list (option V))) :=
  match dc_areps c with
  | [] => DRaise EUserWarning
  | _ =>
      match agent_rows c with
      | [] => DRaise EOther
      | _ => if existsb (fun p => existsb (fun r => Nat.eqb (List.length (snd r)) (List.length (dc_areps c))) (snd p)) (dc_recs c)
             then DOk (agent_rows c) else DRaise EValue
      end
  end.
Definition cell_eqb (x y : cell V) : bool :=
  match x, y with
  | CTime a, CTime b => n_eqb a b
  | CCount a, CCount b => Nat.eqb a b
  | CUser a, CUser b => veqb a b
  | _, _ => false
  end.
Fixpoint distinct (l : list (cell V)) : bool :=
  match l with [] => true | x :: l' => negb (existsb (cell_eqb x) l') && distinct l' end.
(** The place of a number of steps in the first level of the index: the values there are sorted, each once. *)
Definition place (ss : list nat) (s : nat) : nat := List.length (nodup Nat.eq_dec (filter (fun x => Nat.ltb x s) ss)).
(** soil/environment.py:125-132: [set_levels] puts the times of the model in the places of the numbers of steps; pandas wants them
    distinct, and as many. *)
Definition agent_df (steps : bool) (c : dcol) : dres aframe :=
  dbind (agent_vars_rows c) (fun rows =>
    if steps then DOk (AFrame ("step", "agent_id") (dc_areps c) (map (fun r => (CCount (fst (fst r)), snd (fst r), snd r)) rows))
    else dbind (model_vars_frame c) (fun f =>
      match dget "time" (f_cols f) with
      | None => DRaise EOther
      | Some ts =>
          let ss := map (fun r => fst (fst r)) rows in
          if distinct ts && Nat.leb (List.length (nodup Nat.eq_dec ss)) (List.length ts)
          then DOk (AFrame ("time", "agent_id") (dc_areps c)
                      (map (fun r => (nth (place ss (fst (fst r))) ts (CCount 0), snd (fst r), snd r)) rows))
          else DRaise EValue
      end)).

(** What is drawn: the lines of the model over its index, and for each index of the agents how many cells have each value. *)
Record drawing := Drawing { dr_x : list (cell V); dr_lines : dict string (list (cell V)); dr_counts : option (cell V -> V -> nat) }.
Definition counts_of (af : aframe) (t : cell V) (v : V) : nat :=
  List.length (filter (fun x => match x with Some y => veqb v y | None => false end)
                 (flat_map (fun r => if cell_eqb t (fst (fst r)) then snd r else []) (af_rows af))).
Fixpoint same_entry (l : list (cell V * nat * list (option V))) : bool :=
  match l with
  | [] => false
  | r :: l' => existsb (fun r' => cell_eqb (fst (fst r)) (fst (fst r')) && Nat.eqb (snd (fst r)) (snd (fst r'))) l' || same_entry l'
  end.
(** soil/analysis.py:24-27: [unstack] refuses equal entries of the index. *)
Definition draw_agents (f : frame) (lines : dict string (list (cell V))) (af : aframe) : dres drawing :=
  match af_rows af with
  | [] => DOk (Drawing (f_index f) lines None)
  | _ => if same_entry (af_rows af) then DRaise EValue else DOk (Drawing (f_index f) lines (Some (counts_of af)))
  end.
(** soil/analysis.py:7-27. *)
Definition plot (c : dcol) (adf : option aframe) (mdf : option frame) (steps : bool) (ignore : list string) : dres drawing :=
  dbind (match mdf with Some f => DOk f | None => model_df false c end) (fun f =>
    let ignore := ignore ++ [if steps then "time" else "step"] in
    if forallb (fun n => dhas n (f_cols f)) ignore then
      let lines := filter (fun p => negb (existsb (String.eqb (fst p)) ignore)) (f_cols f) in
      match adf with
      | Some af => draw_agents f lines af
      | None =>
          match agent_df false c with
          | DOk af => draw_agents f lines af
          | DRaise EUserWarning => DOk (Drawing (f_index f) lines None)
          | DRaise e => DRaise e
          end
      end
    else DRaise EKey).
End Df.
Arguments snap : clear implicits.
Arguments dcol : clear implicits.
Arguments frame : clear implicits.
Arguments aframe : clear implicits.
Arguments drawing : clear implicits.
Arguments DOk {A}. Arguments DRaise {A}.
