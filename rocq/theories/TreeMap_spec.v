(* TreeMap_spec.v - trees given by their construction history; uses no model code.
   A history is the list of (parent, data) of nodes 1, 2, ...; node 0 is the root. *)
From Verif Require Import Base.

(* parent of node i >= 1 *)
Definition parent_of {T} (h : list (nat * T)) (i : nat) : option nat :=
  match i with O => None | S j => option_map fst (nth_error h j) end.
(* The children of p, in the order they were added. *)
Definition kids {T} (h : list (nat * T)) (p : nat) : list nat :=
  filter (fun i => match parent_of h i with Some q => q =? p | None => false end) (seq 1 (length h)).
Definition data_of {T} (root : T) (h : list (nat * T)) (i : nat) : option T :=
  match i with O => Some root | S j => option_map snd (nth_error h j) end.
(* Every node is added below an already existing node. *)
Definition good_history {T} (h : list (nat * T)) : Prop :=
  forall j p d, nth_error h j = Some (p, d) -> p <= j.
(* Depth-first, parents before children, children in insertion order. *)
Inductive walk {T} (h : list (nat * T)) : nat -> list nat -> Prop :=
| walk_node i ls : Forall2 (walk h) (kids h i) ls -> walk h i (i :: concat ls).
(* What the user does with a cursor. *)
Inductive cursor_op (T : Type) : Type := CChild (d : T) | CSibling (d : T) | CUp.
Arguments CChild {T}. Arguments CSibling {T}. Arguments CUp {T}.
