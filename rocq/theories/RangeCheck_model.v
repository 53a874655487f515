(* RangeCheck_model.v - src/range_check.rs *)
From Verif Require Import Base.
Local Open Scope Z_scope.

(* range_check.rs 35-37: events (value, +1 | -1) *)
Definition events : Set := list (nat * Z).

(* Lexicographic order of (usize, i32), as sort_unstable uses. *)
Definition ev_leb (a b : nat * Z) : bool :=
  (fst a <? fst b)%nat || ((fst a =? fst b)%nat && (snd a <=? snd b)).
Fixpoint ev_insert (x : nat * Z) (l : events) : events :=
  match l with
  | [] => [x]
  | y :: t => if ev_leb x y then x :: l else y :: ev_insert x t
  end.
(* sort_unstable of Copy tuples: any sorting algorithm gives the same list (equal elements are
   indistinguishable); insertion sort here. *)
Definition ev_sort (l : events) : events := fold_right ev_insert [] l.

(* range_check.rs 40-48; the `end + 1` overflow at usize::MAX is not modelled *)
Definition range_new (ranges : list (nat * nat)) : events :=
  ev_sort (flat_map (fun r => [(fst r, 1); ((snd r + 1)%nat, -1)]) ranges).

(* range_check.rs 50-59 *)
Fixpoint range_sum (evs : events) (value : nat) (active : Z) : Z :=
  match evs with
  | [] => active
  | (p, t) :: r => if (value <? p)%nat then active else range_sum r value (active + t)
  end.
Definition range_contains (evs : events) (value : nat) : bool := 0 <? range_sum evs value 0.
