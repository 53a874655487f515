(* TreeMap_model.v - src/tree_map.rs: FoxTreeMap and FoxTreeCursor.
   Simplifications: the name and name_to_index fields are dropped (the map is written but never read
   by any method of the type); the hash set of visited indices is a list. *)
From Verif Require Import Base.

(* tree_map.rs:35-41 FoxTreeNode *)
Record node (T : Type) : Type := mkNode { nd_index : nat; nd_parent : nat; nd_children : list nat; nd_data : T }.
Arguments mkNode {T}. Arguments nd_index {T}. Arguments nd_parent {T}. Arguments nd_children {T}. Arguments nd_data {T}.
(* tree_map.rs:45-48 FoxTreeMap *)
Definition tree (T : Type) : Type := list (node T).

Section Tree.
Context {T : Type}.
(* tree_map.rs:51-67 new *)
Definition tree_new (d : T) : tree T := [mkNode 0 0 [] d].
(* tree_map.rs:73-78 children *)
Definition tree_children (t : tree T) (i : nat) : list nat :=
  match nth_error t i with Some n => nd_children n | None => [] end.
(* tree_map.rs:80-85 node *)
Definition tree_node (t : tree T) (i : nat) : outcome (node T) := oindex t i.
(* tree_map.rs:87-101 add_child; indexing the parent panics when it is out of range *)
Definition tree_add_child (t : tree T) (parent : nat) (d : T) : outcome (tree T * nat) :=
  let index := length t in
  match nth_error t parent with
  | None => Panic
  | Some p =>
      let p' := mkNode (nd_index p) (nd_parent p) (nd_children p ++ [index]) (nd_data p) in
      Ok (upd t parent p' ++ [mkNode index parent [] d], index)
  end.
(* tree_map.rs:113-128 for_each_recursive; the callback's calls are collected in a list.
   fuel bounds the recursion depth; exhausting it is a Panic. *)
Fixpoint for_each_rec (fuel : nat) (t : tree T) (i : nat) (st : list nat * list (nat * T))
  : outcome (list nat * list (nat * T)) :=
  match fuel with
  | O => Panic
  | S f =>
      let (visited, calls) := st in
      if existsb (Nat.eqb i) visited then Ok st
      else
        let! n := oindex t i in
        ofold (fun s c => for_each_rec f t c s) (nd_children n) (i :: visited, calls ++ [(i, nd_data n)])
  end.
(* tree_map.rs:104-110 for_each *)
Definition for_each (t : tree T) : outcome (list (nat * T)) :=
  omap snd (for_each_rec (S (length t)) t 0 ([], [])).
(* tree_map.rs:185-188 last_node *)
Definition last_node (t : tree T) : outcome (nat * nat) :=
  let last := length t - 1 in let! n := oindex t last in Ok (nd_parent n, last).

(* tree_map.rs:226-268 FoxTreeCursor: tree, parent index, current index *)
Record cursor : Type := mkCursor { cu_tree : tree T; cu_parent : nat; cu_current : nat }.
Definition cursor_add_child (c : cursor) (d : T) : outcome cursor :=
  let! (t, i) := tree_add_child (cu_tree c) (cu_current c) d in Ok (mkCursor t (cu_current c) i).
Definition cursor_add_sibling (c : cursor) (d : T) : outcome cursor :=
  let! (t, i) := tree_add_child (cu_tree c) (cu_parent c) d in Ok (mkCursor t (cu_parent c) i).
Definition cursor_up (c : cursor) : outcome cursor :=
  let! n := tree_node (cu_tree c) (cu_parent c) in Ok (mkCursor (cu_tree c) (nd_parent n) (nd_index n)).
End Tree.
Arguments cursor : clear implicits.
