(* Fm_spec.v - FM cells and FM address marks. *)
From Verif Require Import Base Mfm_spec.

(* FM: every data bit is preceded by a clock bit of 1. *)
Definition fm_cells (ds : list bool) : list bool := flat_map (fun d => [true; d]) ds.
(* The clock bits and data bits of n cells whose first clock bit is at p. *)
Definition clocks_at (l : list bool) (p n : nat) : list bool := map (fun k => nth (p + 2 * k) l false) (seq 0 n).
Definition data_at (l : list bool) (p n : nat) : list bool := map (fun k => nth (p + 1 + 2 * k) l false) (seq 0 n).
(* An FM address mark at p: three bytes with all clocks and a byte with clocks C7 whose data bits agree with `bits` where `mask` is set
   (the data bits of the 16 low cells are the even bits of the 64-bit word). *)
Definition fm_mark (l : list bool) (mask bits : N) (p : nat) : Prop :=
  p + 64 <= length l /\ clocks_at l p 32 = bits_of [0xFF; 0xFF; 0xFF; 0xC7]%N /\
  forall k, k < 8 -> N.testbit mask (N.of_nat (14 - 2 * k)) = true ->
    nth (p + 49 + 2 * k) l false = N.testbit bits (N.of_nat (14 - 2 * k)).
