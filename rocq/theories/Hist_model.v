(* Hist_model.v - src/flux/histogram.rs: the histogram of transition times; src/track/fluxstream.rs 484-632 decode_revolutions: the choice of
   the clock and the decoding of each revolution.
   As in Pll_model.v times are rational numbers (seconds) and every floating point operation is the exact one followed by `rd`.  Of an RPM
   only matters whether it is Rpm360.  The `histogram` crate (0.11, not in /repo) is modelled from its documentation: Histogram::new(3, 14)
   has a bucket for every value below 16 and 8 buckets of equal width for every power of two from 2^4 to 2^13; larger values are an error of
   `increment`, which the code ignores; iteration yields all buckets in order.  Not modelled: total_time, logging, the data rate. *)
From Verif Require Import Base Chs_model BitRing_model Mfm_model Types_model System34_model MetaSector_model BitStream_model DiskImage_model Pll_model Flux_model.
From Coq Require Import QArith Qabs Qround.
Import ListNotations.
Local Close Scope Q_scope.
Local Open Scope nat_scope.

Definition bucket_of (v : N) : option nat :=
  if (v <? 16)%N then Some (N.to_nat v)
  else if (v <? 16384)%N then
    let p := N.log2 v in Some (16 + 8 * (N.to_nat p - 4) + N.to_nat ((v - 2 ^ p) / 2 ^ (p - 3)))
  else None.
(* the range of bucket i is bucket_lo i ..= bucket_lo (i + 1) - 1 *)
Definition bucket_lo (i : nat) : N :=
  if i <? 16 then N.of_nat i
  else let k := i - 16 in let p := N.of_nat (4 + k / 8) in (2 ^ p + N.of_nat (k mod 8) * 2 ^ (p - 3))%N.

(* f64::round() as usize, of a number that is not negative *)
Definition round_nat (x : Q) : nat := Z.to_nat (Qfloor (x + (1 # 2))%Q).
(* 82-84 delta_to_u64 *)
Definition to_ns (rd : Q -> Q) (d : Q) : N := Z.to_N (Qfloor (rd (d * 1000000000)%Q)).
(* 51-76 FluxHistogram::new: the count of each bucket *)
Definition hist_new (rd : Q -> Q) (deltas : list Q) (fraction : Q) : list nat :=
  let take := round_nat (rd (inject_Z (Z.of_nat (length deltas)) * fraction)%Q) in
  let values := map (to_ns rd) (firstn take deltas) in
  map (fun i => length (filter (fun v => match bucket_of v with Some j => j =? i | None => false end) values)) (seq 0 96).
(* 91-115 find_local_maxima(None): the buckets; `prev` and `curr` are the counts of the last two buckets before bucket i *)
Definition c005 : Q := 5764607523034235 # 1152921504606846976.      (* 0.005 *)
Fixpoint find_peaks (threshold : nat) (prev curr : option nat) (i : nat) (counts : list nat) : list nat :=
  match counts with
  | [] => []
  | b :: counts =>
      (match prev, curr with
       | Some p, Some c => if (p <=? c) && (b <? c) && (threshold <=? c) then [i - 1] else []
       | _, _ => []
       end) ++ find_peaks threshold curr (Some b) (S i) counts
  end.
Definition local_maxima (rd : Q -> Q) (counts : list nat) : list nat :=
  find_peaks (round_nat (rd (inject_Z (Z.of_nat (list_sum counts)) * c005)%Q)) None None 0 counts.
(* 119-135 base_transition_time of a new histogram *)
Definition base_transition_time (rd : Q -> Q) (counts : list nat) : option Q :=
  match local_maxima rd counts with
  | i :: _ :: _ => Some (rd (inject_Z (Z.of_N ((bucket_lo i + (bucket_lo (S i) - 1)) / 2)) / 1000000000)%Q)
  | _ => None
  end.

(* fluxstream.rs 484-632: the constants as f64 *)
Definition c02 : Q := 5764607523034235 # 288230376151711744.        (* 0.02 *)
Definition c2us : Q := 4722366482869645 # 2361183241434822606848.   (* 2e-6 *)
Definition c1us : Q := 4722366482869645 # 4722366482869645213696.   (* 1e-6 *)
Definition c15us : Q := 1770887431076117 # 1180591620717411303424.  (* 1.5e-6 *)
Definition c56 : Q := 7505999378950827 # 9007199254740992.          (* 300.0 / 360.0 *)
Definition in_range (lo hi x : Q) : bool := Qle_bool lo x && Qlt_bool x hi.
(* types/rpm.rs 133-142 try_from_index_time: Some true = Rpm360, Some false = Rpm300 *)
Definition rpm_of_index_time (rd : Q -> Q) (time : Q) : option bool :=
  let rpm := rd (60 / time)%Q in
  if in_range 270 327 rpm then Some false else if in_range 327 414 rpm then Some true else None.
(* 496-499, 541-553 base_rpm *)
Definition is_360 (rd : Q -> Q) (rpm_hint : option bool) (index_time : Q) : bool :=
  let base := match rpm_hint with
              | Some r => r
              | None => match rpm_of_index_time rd index_time with Some r => r | None => false end
              end in
  let rev_rpm := rd (60 / index_time)%Q in
  if in_range 255 345 rev_rpm then false else if in_range 345 414 rev_rpm then true else base.
(* 502-534 *)
Definition clock_by_count (n : nat) : option Q :=
  if (20000 <=? N.of_nat n)%N && (N.of_nat n <? 41666)%N then Some c2us else if (50000 <=? N.of_nat n)%N then Some c1us else None.
(* 558-586; rpm.rs 150-158 adjust_clock *)
Definition base_clock (rd : Q -> Q) (clock_hint : option Q) (rpm_hint : option bool) (deltas : list Q) (index_time : Q) : Q :=
  match (match clock_hint with Some c => Some c | None => clock_by_count (length deltas) end) with
  | Some c => if is_360 rd rpm_hint index_time && Qle_bool c15us c then rd (c * c56)%Q else c
  | None => match base_transition_time rd (hist_new rd deltas 1) with
            | Some t => rd (t / 2)%Q
            | None => c2us
            end
  end.
(* 592-621 *)
Definition refine_clock (rd : Q -> Q) (base : Q) (deltas : list Q) : Q :=
  match base_transition_time rd (hist_new rd deltas c02) with
  | Some t =>
      let period := rd (t / 2)%Q in
      if Qlt_bool (Qabs (rd (rd (period - base) / base)%Q)) (1 # 4) then period else base
  | None => base
  end.
Definition choose_clock (rd : Q -> Q) (clock_hint : option Q) (rpm_hint : option bool) (deltas : list Q) (index_time : Q) : Q :=
  refine_clock rd (base_clock rd clock_hint rpm_hint deltas index_time) deltas.
(* 492-632 one revolution: its bits and whether they are MFM; None: a PLL loop needs more than `fuel` ticks *)
Definition decode_revolution (rd : Q -> Q) (fuel : nat) (clock_hint : option Q) (rpm_hint : option bool) (deltas : list Q) (index_time : Q) : option (outcome (list bool * bool)) :=
  match pll_at rd (rd (1 / choose_clock rd clock_hint rpm_hint deltas index_time)%Q) with
  | Ok pll => option_map Ok (decode_direct rd fuel pll deltas)
  | Err e => Some (Err e)
  | Panic => Some Panic
  end.
(* 634-650 the track of a revolution, with flux_revolution.rs 261-263 bitstream_data.  `fm` makes the track of FM bits (FmCodec, not modelled
   here); a PLL loop that does not end is no outcome of the code: Panic stands for it *)
Definition revolution_track (rd : Q -> Q) (fuel : nat) (rnd : nat -> bool) (fm : list bool -> outcome BitTrack) (clock_hint : option Q) (rpm_hint : option bool)
    (ch : DiskCh) (deltas : list Q) (index_time : Q) : outcome BitTrack :=
  match decode_revolution rd fuel clock_hint rpm_hint deltas index_time with
  | Some (Ok (bits, true)) => bt_new rnd ch (to_bytes bits) None (Some (length bits)) false
  | Some (Ok (bits, false)) => fm bits
  | Some (Err e) => Err e
  | Some Panic => Panic
  | None => Panic
  end.
(* the revolutions of a track one after the other; `sec` converts the loader's times *)
Definition decode_revolutions (rd : Q -> Q) (fuel : nat) (rnd : nat -> bool) (fm : list bool -> outcome BitTrack) (clock_hint : option Q) (rpm_hint : option bool) (sec : N -> Q) : Decoder :=
  fun ch revs => omapM (fun r => revolution_track rd fuel rnd fm clock_hint rpm_hint ch (map sec (fst r)) (sec (snd r))) revs.
