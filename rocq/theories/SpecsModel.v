(** Model of the specifications of agents: soil/agents/__init__.py:492-568 [from_config], with [_from_fixed] and [_from_distro] as in
    DistModel.v. *)
From Coq Require Import List Bool Arith String.
From Verif Require Import PyDict DistModel.
Import ListNotations.

Section Specs.
Context {V C : Type}.
(** config.Strategy: to fill the network, to reach the total number, or something else. *)
Inductive strategy := Topology | Total | Neither.
(** The fields of a configuration that are used; [cf_n] is None if it is not given. *)
Record agent_config := Config {
  cf_fixed : option (list (fixed V C)); cf_n : option nat; cf_distribution : list (strategy * entry V C); cf_defaults : defaults V C }.

Inductive outcome := Specs (l : list (spec V C)) | Fails (x : exn) | AttributeError | NameError.

(** Lines 526-546, the loop: the entries of both kinds, and the value that [topo] has in the end; None for a ValueError.  [size] is the
    number of nodes. *)
Fixpoint split (cf : agent_config) (size : nat) (l : list (strategy * entry V C)) (networked total : list (entry V C)) (topo : bool)
  : option (list (entry V C) * list (entry V C) * bool) :=
  match l with
  | [] => Some (networked, total, topo)
  | (Topology, d) :: l' =>
      let topo := match en_topology d with Some t => t | None => df_topology (cf_defaults cf) end in
      if negb topo then None else if size =? 0 then None else split cf size l' (networked ++ [d]) total topo
  | (Total, d) :: l' =>
      match cf_n cf with
      | None | Some 0 => None
      | Some _ => split cf size l' networked (total ++ [d]) topo
      end
  | (Neither, _) :: l' => split cf size l' networked total topo
  end.

(** Lines 506-568, for a configuration.  [more] and [shuffled] are the effects of [random.choices] and [random.shuffle], for each of the
    two distributions.  A difference of numbers of agents that would be negative is 0 here: [_from_distro] makes no agents for both, if
    no weight is negative.  Line 565 uses a variable that does not exist. *)
Definition from_fields (cf : agent_config) (size : nat) (more1 more2 : nat -> list nat) (shuffled1 shuffled2 : list nat -> list nat) : outcome :=
  let '(agents, assigned_total, assigned_network) :=
    match cf_fixed cf with Some l => from_fixed l (df_topology (cf_defaults cf)) (cf_defaults cf) | None => ([], 0, 0) end in
  match cf_distribution cf with
  | [] => Specs agents
  | _ =>
      match split cf size (cf_distribution cf) [] [] false with
      | None => Fails ValueError
      | Some (networked, total, topo) =>
          match match networked with
                | [] => Agents []
                | _ => from_distro networked (Some (size - assigned_network)) (cf_defaults cf) topo more1 shuffled1
                end with
          | Raises x => Fails x
          | Agents l1 =>
              match match total with
                    | [] => Agents []
                    | _ => from_distro total (option_map (fun n => n - (assigned_total + List.length l1)) (cf_n cf)) (cf_defaults cf) false more2 shuffled2
                    end with
              | Raises x => Fails x
              | Agents l2 =>
                  if assigned_network + List.length l1 <? size then NameError else Specs (agents ++ l1 ++ l2)
              end
          end
      end
  end.

(** Lines 492-568.  [known] is whether soil/config.py has a class AgentConfig: it does not (soil/config.py:1-2). *)
Definition from_config (known : bool) (cf : agent_config) (size : nat) (more1 more2 : nat -> list nat) (shuffled1 shuffled2 : list nat -> list nat) : outcome :=
  if known then from_fields cf size more1 more2 shuffled1 shuffled2 else AttributeError.
Definition has_agent_config : bool := false.
End Specs.
Arguments agent_config : clear implicits. Arguments outcome : clear implicits.
