(* Pll_model.v - src/flux/pll.rs: the software PLL that turns the times between flux transitions into bit cells; src/flux/flux_revolution.rs
   240-321: decoding one revolution and choosing its encoding; synthetic revolutions.
   Times are rational numbers.  Every floating point operation is the exact operation followed by `rd`, the rounding of its result: f64
   arithmetic is one such `rd` (as long as nothing overflows), exact arithmetic is another (Qred).  The literals are the exact values of the
   f64 constants.  NaN and infinities, logging, the statistics kept for plots and error_bits (computed, never returned) are not modelled.
   The loops `while time < ..` are bounded by `fuel` ticks per transition: the result is None when a loop needs more. *)
From Verif Require Import Base.
From Coq Require Import QArith Qabs.
Import ListNotations.
Local Close Scope Q_scope.
Local Open Scope nat_scope.

Definition Qlt_bool (a b : Q) : bool := negb (Qle_bool b a).
Definition c65 : Q := 5854679515581645 # 9007199254740992.        (* 0.65 *)
Definition c05 : Q := 3602879701896397 # 72057594037927936.       (* 0.05 *)
Definition c20 : Q := 3602879701896397 # 18014398509481984.       (* 0.20 = MAX_CLOCK_ADJUST *)
(* f64::clamp *)
Definition Qclamp (lo hi x : Q) : Q := if Qlt_bool x lo then lo else if Qlt_bool hi x then hi else x.

(* pll.rs 91-121: the fields decoding uses *)
Record Pll : Set := mkPll { pll_period : Q; pll_work : Q; pll_adj : Q; pll_gain : Q }.
(* 123-142 set_clock with max_adj = None on a new Pll; assert!(rate > 1.0) *)
Definition pll_at (rd : Q -> Q) (rate : Q) : outcome Pll :=
  if Qlt_bool 1%Q rate then let p := rd (1 / rate)%Q in Ok (mkPll p p c20 c65) else Panic.

(* pll.rs 322-336: tick until the transition is passed; number of ticks and the new time *)
Fixpoint ticks (rd : Q -> Q) (fuel : nat) (time target w : Q) : option (nat * Q) :=
  if Qlt_bool time target then
    match fuel with
    | O => None
    | S f => match ticks rd f (rd (time + w)%Q) target w with Some (k, t) => Some (S k, t) | None => None end
    end
  else Some (O, time).
(* 378-399: the cells of one transition *)
Definition emit (n : nat) : list bool := match n with O => [] | S k => repeat false k ++ [true] end.
(* the u64 shift register: shift_reg <<= 1, |= 1 *)
Definition shift_in (reg : N) (bits : list bool) : N := fold_left (fun r b => (2 * (r mod 2 ^ 63) + b2N b)%N) bits reg.
Definition mfm_pattern (reg : N) : bool := (reg mod 2 ^ 63 =? 0x2AAAAAAA44894489)%N.

Record Stats : Set := mkStats { st_total : nat; st_short : nat; st_medium : nat; st_long : nat; st_too_short : nat; st_too_long : nat }.
(* 338-376 *)
Definition count_flux (n : nat) (s : Stats) : Stats :=
  match n with
  | 0 | 1 => mkStats (st_total s) (st_short s) (st_medium s) (st_long s) (S (st_too_short s)) (st_too_long s)
  | 2 => mkStats (st_total s) (S (st_short s)) (st_medium s) (st_long s) (st_too_short s) (st_too_long s)
  | 3 => mkStats (st_total s) (st_short s) (S (st_medium s)) (st_long s) (st_too_short s) (st_too_long s)
  | 4 => mkStats (st_total s) (st_short s) (st_medium s) (S (st_long s)) (st_too_short s) (st_too_long s)
  | _ => mkStats (st_total s) (st_short s) (st_medium s) (st_long s) (st_too_short s) (S (st_too_long s))
  end.

(* the variables of the loop of decode_mfm *)
Record Dec : Set := mkDec {
  d_time : Q; d_last : Q; d_perr : Q; d_padj : Q; d_gate : Z; d_work : Q;
  d_bits : list bool; d_reg : N; d_marks : list (Q * nat); d_stats : Stats }.

(* pll.rs 286-538: one transition of decode_mfm.  adjust_gate is an i32 in the code. *)
Definition mfm_step (rd : Q -> Q) (fuel : nat) (lo hi : Q) (s : Dec) (delta : Q) : option Dec :=
  let this := rd (d_last s + delta)%Q in
  match ticks rd fuel (rd (d_time s + d_padj s)%Q) this (d_work s) with
  | None => None
  | Some (n, time) =>
      let bits := d_bits s ++ emit n in
      let reg := shift_in (d_reg s) (emit n) in
      let marks := if mfm_pattern reg then d_marks s ++ [(time, length bits - 32)] else d_marks s in
      let window_max := rd (rd (time - this) + delta)%Q in
      let window_center := rd (window_max - rd (d_work s / 2))%Q in
      let perr := rd (delta - window_center)%Q in
      let gate := (if Qlt_bool perr 0%Q then (if d_gate s <? 0 then d_gate s - 1 else -1)
                   else (if 0 <? d_gate s then d_gate s + 1 else 1))%Z in
      let least := if Qlt_bool (Qabs perr) (Qabs (d_perr s)) then perr else d_perr s in
      let padj := rd (c65 * least)%Q in
      let clk := if (1 <? Z.abs gate)%Z then rd (c05 * perr)%Q else 0%Q in
      let work := Qclamp lo hi (rd (d_work s + clk)%Q) in
      Some (mkDec time this perr padj gate work bits reg marks (count_flux n (d_stats s)))
  end.
Fixpoint mfm_loop (rd : Q -> Q) (fuel : nat) (lo hi : Q) (deltas : list Q) (s : Dec) : option Dec :=
  match deltas with
  | [] => Some s
  | d :: ds => match mfm_step rd fuel lo hi s d with Some s' => mfm_loop rd fuel lo hi ds s' | None => None end
  end.
(* pll.rs 228-284: the clock limits come from working_period, before it is set back to pll_period *)
Definition clock_limits (rd : Q -> Q) (w adj : Q) : Q * Q := (rd (w - rd (w * adj))%Q, rd (w + rd (w * adj))%Q).
Definition mfm_start (rd : Q -> Q) (p : Pll) (total : nat) : Dec :=
  mkDec (rd (pll_period p / 2)%Q) 0%Q 0%Q 0%Q 0%Z (pll_period p) [] 0%N [] (mkStats total 0 0 0 0 0).
(* 228-549 decode_mfm: the loop's variables, and the Pll afterwards *)
Definition decode_mfm (rd : Q -> Q) (fuel : nat) (p : Pll) (deltas : list Q) : option (Dec * Pll) :=
  let (lo, hi) := clock_limits rd (pll_work p) (pll_adj p) in
  match mfm_loop rd fuel lo hi deltas (mfm_start rd p (length deltas)) with
  | Some s => Some (s, mkPll (pll_period p) (d_work s) (pll_adj p) (pll_gain p))
  | None => None
  end.

(* x % y on floats: the remainder of the division truncated towards 0 (exact in f64) *)
Definition Qrem (x y : Q) : Q :=
  let k := Z.quot (Qnum x * Zpos (Qden y)) (Qnum y * Zpos (Qden x)) in (x - inject_Z k * y)%Q.
(* the variables of the loop of decode_fm *)
Record FDec : Set := mkFDec { f_time : Q; f_last : Q; f_acc : Q; f_work : Q; f_bits : list bool; f_reg : N; f_marks : list (Q * nat); f_stats : Stats }.
Definition count_flux_fm (n : nat) (s : Stats) : Stats :=
  match n with
  | 0 => mkStats (st_total s) (st_short s) (st_medium s) (st_long s) (S (st_too_short s)) (st_too_long s)
  | 1 => mkStats (st_total s) (S (st_short s)) (st_medium s) (st_long s) (st_too_short s) (st_too_long s)
  | 2 => mkStats (st_total s) (st_short s) (st_medium s) (S (st_long s)) (st_too_short s) (st_too_long s)
  | _ => mkStats (st_total s) (st_short s) (st_medium s) (st_long s) (st_too_short s) (S (st_too_long s))
  end.
Definition fm_pattern (reg : N) : bool := (N.land reg 0xAAAAAAAAAAAAAAAA =? 0xAAAAAAAAAAAAA02A)%N.
(* pll.rs 633-648: `while (time + phase_accumulator) < next { time += period }` *)
Fixpoint fticks (rd : Q -> Q) (fuel : nat) (time acc target w : Q) : option (nat * Q) :=
  if Qlt_bool (rd (time + acc)%Q) target then
    match fuel with
    | O => None
    | S f => match fticks rd f (rd (time + w)%Q) acc target w with Some (k, t) => Some (S k, t) | None => None end
    end
  else Some (O, time).
(* pll.rs 601-744: one transition of decode_fm *)
Definition fm_step (rd : Q -> Q) (fuel : nat) (lo hi gain : Q) (s : FDec) (delta : Q) : option FDec :=
  let next := rd (f_last s + delta)%Q in
  match fticks rd fuel (f_time s) (f_acc s) next (f_work s) with
  | None => None
  | Some (n, time) =>
      let time := rd (time + f_acc s)%Q in
      let bits := f_bits s ++ emit n in
      let reg := shift_in (f_reg s) (emit n) in
      let marks := if fm_pattern reg then f_marks s ++ [(time, length bits - 16)] else f_marks s in
      let predicted := rd (f_last s + rd (inject_Z (Z.of_nat n) * f_work s))%Q in
      let perr := rd (next - predicted)%Q in
      let p_term := rd (rd (gain * perr) / f_work s)%Q in
      let work := Qclamp lo hi (rd (f_work s + p_term)%Q) in
      let acc := rd (0 + perr)%Q in
      let acc := if Qlt_bool work (Qabs acc) then Qrem acc work else acc in
      Some (mkFDec time next acc work bits reg marks (count_flux_fm n (f_stats s)))
  end.
Fixpoint fm_loop (rd : Q -> Q) (fuel : nat) (lo hi gain : Q) (deltas : list Q) (s : FDec) : option FDec :=
  match deltas with
  | [] => Some s
  | d :: ds => match fm_step rd fuel lo hi gain s d with Some s' => fm_loop rd fuel lo hi gain ds s' | None => None end
  end.
(* pll.rs 551-762 decode_fm *)
Definition decode_fm (rd : Q -> Q) (fuel : nat) (p : Pll) (deltas : list Q) : option FDec :=
  let w := rd (pll_period p * 2)%Q in
  let (lo, hi) := clock_limits rd w (pll_adj p) in
  fm_loop rd fuel lo hi (pll_gain p) deltas (mkFDec (rd (- w / 2)%Q) 0%Q 0%Q w [] 0%N [] (mkStats (length deltas) 0 0 0 0 0)).

(* flux/mod.rs 159-174 detect_encoding: true = MFM.  0 / 0 is NaN, and no comparison with it holds *)
Definition looks_mfm (rd : Q -> Q) (s : Stats) : bool :=
  match st_total s with
  | O => false
  | _ => Qlt_bool c05 (rd (inject_Z (Z.of_nat (st_medium s)) / inject_Z (Z.of_nat (st_total s)))%Q)
  end.
(* flux_revolution.rs 274-313 decode_direct: the bits, and whether they are MFM *)
Definition decode_direct (rd : Q -> Q) (fuel : nat) (p : Pll) (deltas : list Q) : option (list bool * bool) :=
  match decode_mfm rd fuel p deltas with
  | None => None
  | Some (s, p') =>
      if (match d_marks s with [] => true | _ => false end) && negb (looks_mfm rd (d_stats s)) then
        match decode_fm rd fuel p' deltas with
        | None => None
        | Some f => match f_marks f with [] => Some (d_bits s, true) | _ => Some (f_bits f, false) end
        end
      else Some (d_bits s, true)
  end.

(* flux_revolution.rs 139-229 from_adjacent_pair: (transition times, index time) of the synthetic revolutions *)
Definition adjacent_pair {A B} (a b : list A * B) : list (list A * B) :=
  if length (fst a) =? length (fst b) + 2 then
    match rev (fst a) with
    | x :: r => [(rev r, snd a); (x :: fst b, snd b)]
    | [] => []
    end
  else if length (fst b) =? length (fst a) + 2 then
    match fst b with
    | x :: r => [(fst a ++ [x], snd a); (r, snd b)]
    | [] => []
    end
  else [].
(* fluxstream.rs 634-644 synthesize_revolutions *)
Fixpoint synthesized {A B} (l : list (list A * B)) : list (list A * B) :=
  match l with
  | a :: ((b :: _) as t) => adjacent_pair a b ++ synthesized t
  | _ => []
  end.
Definition synthesize {A B} (l : list (list A * B)) : list (list A * B) := l ++ synthesized l.
