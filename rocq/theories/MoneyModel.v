(** Model of the construction of MoneyEnv (examples/mesa/social_wealth.py:74-111) and of the portrayals of
    examples/mesa/server.py:13-58.

    MoneyAgent.__init__ (examples/mesa/social_wealth.py:31-33) takes the argument [node_id] of [add_agent] among its [kwargs] and does
    not pass it on.  In a SocialMoneyAgent the next constructor is that of NetworkAgent, which therefore looks for a free node itself; a
    MoneyAgent has no node. *)
From Coq Require Import List Bool Arith ZArith QArith.
From Verif Require Import PyDict NetModel.
Import ListNotations.
Local Close Scope Q_scope.
Local Open Scope nat_scope.

(** examples/mesa/social_wealth.py:74-78 [graph_generator]: nodes 0, ..., n-1 in this order, and an edge from 0 to each of them, 0
    included. *)
Definition star (n : nat) : graph nat := Graph (map (fun i => (i, None)) (seq 0 n)) (map (fun i => (0, i)) (seq 0 n)) false.

(** [random.choices(list(self.G.nodes), k=len(self.G))] for the [i]-th agent, given the nodes; [random.randrange]: the [i]-th draw,
    given the bound. *)
Record luck := Luck { l_choices : nat -> list nat -> list nat; l_range : nat -> nat -> nat }.

Section Money.
Variable r : luck.
(** The class of the agents: SocialMoneyAgent or MoneyAgent. *)
Variable social : bool.

(** One agent: soil/environment.py:405-407 and 287-296, with the constructor as said above. *)
Definition money_add (e : nenv nat) (n : nat) : nenv nat * option exn :=
  let picks := l_choices r (List.length (ne_objs e)) (dkeys (g_nodes (ne_graph e))) in
  match base_add_agent (fun i => i) e (if social then KNet else KBase) None None picks with
  | (e1, Err x) => (e1, Some x)
  | (e1, Val o) => match put (ne_graph e1) n o with
                   | None => (e1, Some KeyError)
                   | Some g => (with_graph e1 g, None)
                   end
  end.
Fixpoint money_add_all (l : list nat) (e : nenv nat) : nenv nat * option exn :=
  match l with
  | [] => (e, None)
  | n :: l' => match money_add e n with
               | (e1, None) => money_add_all l' e1
               | x => x
               end
  end.

(** soil/environment.py:390-409 [populate_network], for one class. *)
Definition money_populate (g : graph nat) : nenv nat * option exn :=
  let e := NEnv g (-1) [] [] in
  match g_nodes g with
  | [] => (e, Some AssertionError)
  | nodes =>
      let '(g1, l) := reserve (map (fun _ => KNet) nodes) nodes g in
      match money_add_all (map snd l) (with_graph e g1) with
      | (e1, None) =>
          if forallb (fun p => has_key (snd p)) (g_nodes (ne_graph e1)) && some_network_agent e1
          then (e1, None) else (e1, Some AssertionError)
      | x => x
      end
  end.

(** The result: the environment and the position of each agent of the schedule, in its order. *)
Inductive made := Made (e : nenv nat) (pos : list (obj * (nat * nat))) | Failed (x : exn).
(** examples/mesa/social_wealth.py:104-107: [randrange(0)] raises a ValueError (UserError here). *)
Fixpoint place (i : nat) (agents : list obj) (width height : nat) : list (obj * (nat * nat)) :=
  match agents with
  | [] => []
  | a :: l => (a, (l_range r i width, l_range r (S i) height)) :: place (S (S i)) l width height
  end.
(** examples/mesa/social_wealth.py:84-107; [g] is [generator(n=N)]. *)
Definition money_env (g : graph nat) (width height : nat) : made :=
  match money_populate g with
  | (_, Some x) => Failed x
  | (e, None) =>
      if negb (Nat.eqb (List.length (ne_reg e)) 0) && (Nat.eqb width 0 || Nat.eqb height 0) then Failed UserError
      else Made e (place 0 (ne_reg e) width height)
  end.
End Money.

(** [set(self.get_neighbors())] (soil/agents/network_agents.py:29-33 and 45-60): the agents that the adjacent nodes have. *)
Definition friends (e : nenv nat) (o : obj) : list obj :=
  match node_of e o with
  | None => []
  | Some n => flat_map (fun m => match get_slot (ne_graph e) m with Some (Some b) => [b] | _ => [] end) (nx_neighbors (ne_graph e) n)
  end.

(** examples/mesa/server.py:13-36 [network_portrayal]: nodes with their size, whether they are red, and the wealth of their label;
    edges with their numbers.  None is the KeyError or AttributeError of a node without an agent. *)
Record pnode := PNode { pn_id : nat; pn_size : Z; pn_red : bool; pn_wealth : Z }.
Definition portray_node (wealth : obj -> Z) (p : nat * slot) : option pnode :=
  match snd p with
  | Some (Some o) => Some (PNode (fst p) (2 * (wealth o + 1)) (Z.eqb (wealth o) 0) (wealth o))
  | _ => None
  end.
Fixpoint opt_map {X Y} (f : X -> option Y) (l : list X) : option (list Y) :=
  match l with
  | [] => Some []
  | x :: l' => match f x, opt_map f l' with Some y, Some ys => Some (y :: ys) | _, _ => None end
  end.
Definition network_portrayal (g : graph nat) (wealth : obj -> Z) : option (list pnode * list (nat * (nat * nat))) :=
  match opt_map (portray_node wealth) (g_nodes g) with
  | None => None
  | Some l => Some (l, combine (seq 0 (List.length (g_edges g))) (g_edges g))
  end.

(** examples/mesa/server.py:39-58 [gridPortrayal]: the opacity of the cell, which is written as "0." followed by the decimal digits of
    the colour. *)
Definition colour (wealth : Z) : Z := Z.max 10 (Z.min (wealth * 10) 100).
Fixpoint digits (fuel : nat) (z : Z) : nat :=
  match fuel with
  | 0 => 0
  | S fuel' => if (z <? 10)%Z then 1 else S (digits fuel' (z / 10))
  end.
Definition opacity (wealth : Z) : Q := inject_Z (colour wealth) / inject_Z (10 ^ Z.of_nat (digits 20 (colour wealth))).
