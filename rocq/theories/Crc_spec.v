(* Crc_spec.v - polynomials over GF(2), written as the bits of a number; uses no model code. *)
From Verif Require Import Base Mfm_spec.

(* Carry-less (GF(2)) product. *)
Fixpoint clmul_pos (p : positive) (b : N) : N :=
  match p with
  | xH => b
  | xO p => N.double (clmul_pos p b)
  | xI p => N.lxor b (N.double (clmul_pos p b))
  end.
Definition clmul (a b : N) : N := match a with N0 => 0%N | Npos p => clmul_pos p b end.

(* r is the remainder of the polynomial m modulo the polynomial g of degree w. *)
Definition is_rem (w : N) (g m r : N) : Prop :=
  (r < 2 ^ w)%N /\ exists q, m = N.lxor (clmul q g) r.

(* Parity of the number of set bits in a list. *)
Definition odd_ones (l : list bool) : bool := fold_right xorb false l.
(* Two equally long bit lists: the list of differences. *)
Definition bit_diff (a b : list bool) : list bool := map (fun p => xorb (fst p) (snd p)) (combine a b).
