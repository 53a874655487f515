(* Hist_spec.v - what the choice of the clock is about. *)
From Verif Require Import Base Pll_spec.
From Coq Require Import QArith Qabs.
Import ListNotations.
Local Close Scope Q_scope.
Local Open Scope nat_scope.

(* every operation is correct up to a relative error of `u` (f64: u = 2^-53) *)
Definition rounds_rel (rd : Q -> Q) (u : Q) : Prop := forall x, (Qabs (rd x - x) <= u * Qabs x)%Q.
(* the part of the times that lies within `tol` (relative) and 3 ns of t *)
Definition close_to (t tol : Q) (d : Q) : bool := Qle_bool (Qabs (d - t)) (tol * t + (3 # 1000000000))%Q.
(* a speed of about 300 RPM *)
Definition about_300 (index_time : Q) : Prop := (180 # 1000 <= index_time <= 230 # 1000)%Q.
(* a cell within 1% of the nominal length *)
Definition cell_of (nominal cell : Q) : Prop := ((99 # 100) * nominal <= cell <= (101 # 100) * nominal)%Q.
(* the transitions of a recorded MFM track: up to 1% of a cell early or late, at least 6% of them 3 cells apart, at most half a second *)
Record recording (cell : Q) (gaps : list nat) (deltas : list Q) : Prop := {
  rec_mfm : mfm_gaps gaps;
  rec_some : gaps <> [];
  rec_medium : 6 * length gaps <= 100 * count_occ Nat.eq_dec gaps 3;
  rec_near : near cell ((1 # 100) * cell)%Q gaps deltas;
  rec_time : (cell * (Qnat (list_sum gaps) + 10) <= 1 # 2)%Q }.
Definition us (n : Z) : Q := (n # 1000000).

(* one revolution (transition times and index time in units `sec`) of a standard track that recorded `gaps`: a double density track with 20000
   to 41665 transitions at about 300 RPM, or a high density track with at least 50000 *)
Definition standard_revolution (sec : N -> Q) (gaps : list nat) (rev : list N * N) : Prop :=
  exists cell, recording cell gaps (map sec (fst rev)) /\
    ((cell_of (us 2) cell /\ about_300 (sec (snd rev)) /\ (20000 <= N.of_nat (length gaps) < 41666)%N) \/
     (cell_of (us 1) cell /\ (50000 <= N.of_nat (length gaps))%N)).
