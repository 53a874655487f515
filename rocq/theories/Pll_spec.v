(* Pll_spec.v - recorded cells and flux transitions. *)
From Verif Require Import Base.
From Coq Require Import QArith Qabs.
Import ListNotations.
Local Close Scope Q_scope.
Local Open Scope nat_scope.

(* A stream of cells is given by the distances of its transitions: a transition n cells after the last one is n-1 zeros and a one. *)
Definition cells_of (gaps : list nat) : list bool := flat_map (fun n => repeat false (n - 1) ++ [true]) gaps.
(* In MFM, transitions are 2, 3 or 4 cells apart *)
Definition mfm_gaps (gaps : list nat) : Prop := Forall (fun n => 2 <= n <= 4) gaps.

Definition Qsum (l : list Q) : Q := fold_right Qplus 0%Q l.
Definition Qnat (n : nat) : Q := inject_Z (Z.of_nat n).
(* the transitions come at most `jitter` before or after the times at which cells of length `cell` would put them *)
Definition near (cell jitter : Q) (gaps : list nat) (deltas : list Q) : Prop :=
  length deltas = length gaps /\
  forall k, k <= length gaps -> (Qabs (Qsum (firstn k deltas) - cell * Qnat (list_sum (firstn k gaps))) <= jitter)%Q.
(* `rd` rounds numbers up to `big` with an error of at most `eps` *)
Definition rounds (rd : Q -> Q) (big eps : Q) : Prop := forall x, (Qabs x <= big -> Qabs (rd x - x) <= eps)%Q.
(* 32 cells of sync zeros (the first of the 32 does not matter) and two A1 sync marks, 4489 4489, end at cell `e`.  At the start of
   the stream missing cells count as zeros. *)
Definition sync_ends_at (bits : list bool) (e : nat) : Prop :=
  e <= length bits /\ (bits_val (firstn e bits) mod 2 ^ 63 = 0x2AAAAAAA44894489)%N.
Definition ones (bits : list bool) : nat := length (filter (fun b => b) bits).
