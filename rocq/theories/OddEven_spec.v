(* OddEven_spec.v - what odd/even interleaving means, bit by bit; uses no model code. *)
From Verif Require Import Base.
Local Open Scope N_scope.

(* The odd-numbered (respectively even-numbered) bits of a 2k-bit value, packed into k bits:
   bit j of the result is bit 2j+1 (respectively 2j) of w. *)
Definition is_odd_half (k w o : N) : Prop :=
  o < 2 ^ k /\ forall j, j < k -> N.testbit o j = N.testbit w (2 * j + 1).
Definition is_even_half (k w e : N) : Prop :=
  e < 2 ^ k /\ forall j, j < k -> N.testbit e j = N.testbit w (2 * j).
(* The same as functions, by reading off the bits. *)
Definition val_of_bits (k : N) (f : N -> bool) : N := bits_val (map f (rev (Nseq k))).
Definition odd_half (k w : N) : N := val_of_bits k (fun j => N.testbit w (2 * j + 1)).
Definition even_half (k w : N) : N := val_of_bits k (fun j => N.testbit w (2 * j)).

(* The Amiga encoding of a buffer of k-bit units taken in pairs (high unit first): first the odd
   halves of all pairs, then the even halves of all pairs. *)
Fixpoint pairs (l : list N) : list (N * N) :=
  match l with a :: b :: t => (a, b) :: pairs t | _ => [] end.
Definition amiga_encode (k : N) (l : list N) : list N :=
  map (fun p => odd_half k (fst p * 2 ^ k + snd p)) (pairs l) ++
  map (fun p => even_half k (fst p * 2 ^ k + snd p)) (pairs l).
