(** Model of the log that the web interface captures: soil/web/__init__.py:183-200, 206-216 and 250-264, with the loggers that simulations use
    (soil/utils.py:12, soil/simulation.py:115 and 229, soil/agents/__init__.py:127).

    Simplifications: the names of the loggers in the messages are left out; levels are left out (what is logged here has passed them);
    simulations end in any order.  A write between [truncate] and [seek] (194-195) is taken to be before the former. *)
From Coq Require Import List Bool Arith Ascii String.
Import ListNotations.

(** Texts, and the end of a line (soil/web/__init__.py:189). *)
Definition text := list ascii.
Definition nl : ascii := "010"%char.

(** Python: [s.split("\n")] (soil/web/__init__.py:189 and 192), which is never empty. *)
Fixpoint split (s : text) : list text :=
  match s with
  | [] => [[]]
  | c :: s' =>
      if Ascii.eqb c nl then [] :: split s'
      else match split s' with
           | l :: ls => (c :: l) :: ls
           | [] => [[c]]
           end
  end.

(** The names of loggers (soil/web/__init__.py:253), between the dots; the root has none.  A record is given to the handlers of its logger and of those above. *)
Definition path := list string.
Fixpoint above (h p : path) : bool :=
  match h, p with
  | [], _ => true
  | x :: h', y :: p' => String.eqb x y && above h' p'
  | _ :: _, [] => false
  end.

(** One call of [logging] (250-264): the logger of its handler and its StringIO. *)
Record capture := Capture { k_path : path; k_text : text; k_closed : bool; k_attached : bool }.
(** The state of a connection: all captures, the number of the one in [self.log_capture_string], [self.capture_logging], how many calls of
    update_logging wait for their time, whether the connection is open, and the lines sent. *)
Record conn := Conn { c_caps : list capture; c_current : option nat; c_capturing : bool; c_timers : nat; c_open : bool; c_sent : list text }.
(** A connection before its first run (soil/web/__init__.py:48-57). *)
Definition connected : conn := Conn [] None false 0 true [].

(** The [i]-th capture changed. *)
Definition set_cap (l : list capture) (i : nat) (f : capture -> capture) : list capture :=
  map (fun p => if Nat.eqb (fst p) i then f (snd p) else snd p) (combine (seq 0 (List.length l)) l).

(** Every handler that is attached above the logger writes the message and the end of the line (logging.StreamHandler, soil/web/__init__.py:255);
    in a closed StringIO that fails, and logging swallows the failure. *)
Definition write (caps : list capture) (r : path * text) : list capture :=
  map (fun k => if k_attached k && negb (k_closed k) && above (k_path k) (fst r)
                then Capture (k_path k) (k_text k ++ snd r ++ [nl]) (k_closed k) (k_attached k) else k) caps.
Definition clear_text (k : capture) : capture := Capture (k_path k) [] (k_closed k) (k_attached k).
Definition close_text (k : capture) : capture := Capture (k_path k) (k_text k) true (k_attached k).
Definition detach (k : capture) : capture := Capture (k_path k) (k_text k) (k_closed k) false.

(** soil/web/__init__.py:183-200 [update_logging].  The simulation runs in a thread of its own (213-216): [late] is what it logs between the
    last look at the text and its truncation.  If the connection is closed the first message raises: nothing is sent and the text stays; the
    timer is set all the same ([finally]). *)
Definition update_logging (late : list (path * text)) (c : conn) : conn :=
  let timers := if c_capturing c then S (c_timers c) else c_timers c in
  let caps := fold_left write late (c_caps c) in
  let same := Conn caps (c_current c) (c_capturing c) timers (c_open c) (c_sent c) in
  match c_current c with
  | None => same
  | Some i =>
      match nth_error (c_caps c) i with
      | Some k =>
          let ls := removelast (split (k_text k)) in
          if negb (k_closed k) && negb (Nat.eqb (List.length (k_text k)) 0) && (c_open c || Nat.eqb (List.length ls) 0)
          then Conn (set_cap caps i clear_text) (c_current c) (c_capturing c) timers (c_open c) (c_sent c ++ ls)
          else same
      | None => same
      end
  end.

(** What happens: [run_simulation] begins for a simulation of the given name; something is logged; the time of an update comes; the
    simulation of the [i]-th capture ends; the client goes away. *)
Inductive wevent := WStart (name : path) | WLog (logger : path) (msg : text) | WTick (late : list (path * text)) | WEnd (i : nat) | WClose.
Definition wstep (c : conn) (e : wevent) : conn :=
  match e with
  | WStart name =>   (* soil/web/__init__.py:252-257 *)
      update_logging [] (Conn (c_caps c ++ [Capture name [] false true]) (Some (List.length (c_caps c))) true (c_timers c) (c_open c) (c_sent c))
  | WLog logger msg => Conn (write (c_caps c) (logger, msg)) (c_current c) (c_capturing c) (c_timers c) (c_open c) (c_sent c)
  | WTick late =>
      match c_timers c with
      | O => c
      | S n => update_logging late (Conn (c_caps c) (c_current c) (c_capturing c) n (c_open c) (c_sent c))
      end
  | WEnd i =>
      (* soil/web/__init__.py:260-264: what is closed is the capture in [self.log_capture_string], and the handler of this run is taken from the
         logger in [self.logger_application].  With a closed connection 231 raises, and so does 240: there is no [finally] around 258. *)
      if c_open c then
        match c_current c, nth_error (c_caps c) i with
        | Some j, Some k =>
            let own := match nth_error (c_caps c) j with
                       | Some k' => if list_eq_dec string_dec (k_path k') (k_path k) then true else false
                       | None => false
                       end in
            let caps := set_cap (c_caps c) j close_text in
            Conn (if own then set_cap caps i detach else caps) (c_current c) false (c_timers c) (c_open c) (c_sent c)
        | _, _ => c
        end
      else c
  | WClose => Conn (c_caps c) (c_current c) (c_capturing c) (c_timers c) false (c_sent c)
  end.
Definition wrun (es : list wevent) (c : conn) : conn := fold_left wstep es c.

(** The loggers of a simulation with the given name, of its iterations and of its agents: soil/utils.py:12 and
    soil/simulation.py:115 ([logger.getChild(self.name)]) and below. *)
Definition sim_logger (name rest : path) : path := "soil"%string :: name ++ rest.
