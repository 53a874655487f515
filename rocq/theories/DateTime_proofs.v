(* DateTime_proofs.v *)
From Verif Require Import Base Base_lemmas DateTime_model DateTime_spec.
Local Open Scope N_scope.

Lemma leap_iff y : is_leap_year y = true <-> leap y.
Proof.
  unfold is_leap_year, leap.
  destruct (N.eqb_spec (y mod 400) 0), (N.eqb_spec (y mod 100) 0), (N.eqb_spec (y mod 4) 0);
    split; intros H; auto; try discriminate; try tauto; exfalso; clear H; dlia.
Qed.
Lemma leaps_step y : 1 <= y -> leaps_upto y = leaps_upto (y - 1) + (if is_leap_year y then 1 else 0).
Proof.
  intros Hy. unfold leaps_upto, is_leap_year.
  destruct (N.eqb_spec (y mod 400) 0), (N.eqb_spec (y mod 100) 0), (N.eqb_spec (y mod 4) 0); dlia.
Qed.
Lemma leaps_mono y : 1970 <= y -> leaps_upto 1969 <= leaps_upto (y - 1).
Proof. intros H. change (leaps_upto 1969) with 477. unfold leaps_upto. dlia. Qed.
Lemma dby_step y : 1970 <= y -> days_before_year (y + 1) = days_before_year y + days_in_year y.
Proof.
  intros H. unfold days_before_year, days_in_year.
  replace (y + 1 - 1) with y by lia. rewrite (leaps_step y) by lia.
  pose proof (leaps_mono y H). destruct (is_leap_year y); lia.
Qed.
Lemma dby_mono y y' : 1970 <= y -> y <= y' -> days_before_year y <= days_before_year y'.
Proof.
  intros H Hle. pattern y'. apply N.le_ind with (n := y); auto; [intros a b ->; reflexivity|lia|].
  intros m Hm IH. rewrite <- N.add_1_r, dby_step by lia. unfold days_in_year. destruct (is_leap_year m); lia.
Qed.

Lemma days_loop_spec fuel year days : 1970 <= year -> year + N.of_nat fuel = 65536 ->
  (1 <= fuel)%nat ->
  let total := days_before_year year + days in
  (total < days_before_year 65536 ->
   exists y doy, days_loop fuel year days = Ok (y, doy) /\ 1970 <= y <= 65535 /\ doy < days_in_year y /\
     total = days_before_year y + doy) /\
  (days_before_year 65536 <= total -> days_loop fuel year days = Err YearTooLarge).
Proof.
  revert year days; induction fuel as [|fuel IH]; intros year days Hy Hf H1; [lia|].
  cbn zeta. cbn [days_loop].
  pose proof (dby_step year Hy) as Hs.
  pose proof (dby_mono (year + 1) 65536 ltac:(lia) ltac:(lia)) as Hm.
  destruct (N.ltb_spec days (days_in_year year)) as [Hd|Hd].
  - split; intros H; [|exfalso; lia].
    exists year, days. repeat split; auto; lia.
  - destruct (N.eqb_spec year 65535) as [->|Hne].
    + change (65535 + 1) with 65536 in Hs. split; intros H; [exfalso; lia|reflexivity].
    + destruct (IH (year + 1) (days - days_in_year year)) as [A B]; try lia.
      replace (days_before_year (year + 1) + (days - days_in_year year)) with (days_before_year year + days) in * by lia.
      split; auto.
Qed.

Lemma month_loop_spec lens i x : x < fold_right N.add 0 lens ->
  exists k, (k < length lens)%nat /\
    month_loop lens i x = Ok (i + N.of_nat k + 1, x - fold_right N.add 0 (firstn k lens) + 1) /\
    fold_right N.add 0 (firstn k lens) <= x < fold_right N.add 0 (firstn k lens) + nth k lens 0.
Proof.
  revert i x; induction lens as [|m lens IH]; intros i x H; cbn [fold_right] in H; [lia|].
  cbn [month_loop]. destruct (N.ltb_spec x m) as [Hx|Hx].
  - exists 0%nat. cbn [length firstn fold_right nth]. repeat split; try lia. f_equal; f_equal; lia.
  - destruct (IH (i + 1) (x - m)) as (k & Hk & E & Hr); [lia|].
    exists (S k). cbn [length firstn fold_right nth]. rewrite E. repeat split; try lia. f_equal; f_equal; lia.
Qed.

Lemma dbm_eq (lp : bool) k : (k < 12)%nat ->
  fold_right N.add 0 (firstn k (if lp then [31; 29; 31; 30; 31; 30; 31; 31; 30; 31; 30; 31]
              else [31; 28; 31; 30; 31; 30; 31; 31; 30; 31; 30; 31])) = days_before_month lp (N.of_nat k + 1) /\
  nth k (if lp then [31; 29; 31; 30; 31; 30; 31; 31; 30; 31; 30; 31]
              else [31; 28; 31; 30; 31; 30; 31; 31; 30; 31; 30; 31]) 0 = month_len lp (N.of_nat k + 1).
Proof.
  intros H. destruct lp; do 12 (destruct k as [|k]; [split; reflexivity|]); lia.
Qed.

Lemma doy_spec y doy : doy < days_in_year y ->
  exists m d, day_of_year_to_month_day y doy = Ok (m, d) /\ 1 <= m <= 12 /\ 1 <= d <= month_len (is_leap_year y) m /\
    doy = days_before_month (is_leap_year y) m + (d - 1).
Proof.
  intros H. unfold day_of_year_to_month_day.
  match goal with |- context [month_loop ?l 0 doy] => destruct (month_loop_spec l 0 doy) as (k & Hk & E & Hr) end.
  { unfold days_in_year in H. destruct (is_leap_year y); exact H. }
  assert (Hk12 : (k < 12)%nat) by (destruct (is_leap_year y); exact Hk).
  destruct (dbm_eq (is_leap_year y) k Hk12) as [E1 E2]. rewrite E1 in E, Hr. rewrite E2 in Hr.
  rewrite E. do 2 eexists. split; [reflexivity|]. rewrite N.add_0_l. repeat split; lia.
Qed.

Definition last_second : N := days_before_year 65536 * 86400.

Lemma try_from_ok secs nanos : secs < last_second -> nanos < 1000000000 ->
  exists d, datetime_try_from (Some (secs, nanos)) = Ok d /\
    valid_date (dt_year d) (dt_month d) (dt_day d) (dt_hour d) (dt_minute d) (dt_second d) /\
    dt_year d <= 65535 /\
    epoch_seconds (dt_year d) (dt_month d) (dt_day d) (dt_hour d) (dt_minute d) (dt_second d) secs /\
    dt_milli d = nanos / 1000000.
Proof.
  intros Hs Hn. cbn [datetime_try_from]. unfold days_to_ymd.
  destruct (days_loop_spec (N.to_nat (65536 - 1970)) 1970 (secs / 86400)) as [A _]; try lia.
  change (days_before_year 1970) with 0 in A. rewrite N.add_0_l in A.
  destruct A as (y & doy & E & Hy & Hdoy & Etot).
  { apply N.div_lt_upper_bound; [lia|]. unfold last_second in Hs. lia. }
  rewrite E. cbn [obind].
  destruct (doy_spec y doy Hdoy) as (m & d & E2 & Hm & Hd & Edoy).
  rewrite E2. cbn [obind]. eexists. split; [reflexivity|].
  cbn [dt_year dt_month dt_day dt_hour dt_minute dt_second dt_milli].
  unfold as_u8, as_u16. clear E E2.
  set (L := secs mod 86400).
  assert (HL : L < 86400) by (apply N.mod_lt; lia).
  assert (Esec : secs = secs / 86400 * 86400 + L) by (unfold L; rewrite N.mul_comm; apply N.div_mod; lia).
  clearbody L.
  assert (Eh : (L / 3600) mod 256 = L / 3600) by (apply N.mod_small; dlia).
  assert (Em : (L mod 3600 / 60) mod 256 = L mod 3600 / 60) by (apply N.mod_small; dlia).
  assert (Es : ((L mod 3600) mod 60) mod 256 = (L mod 3600) mod 60) by (apply N.mod_small; dlia).
  assert (Ens : (nanos / 1000000) mod 65536 = nanos / 1000000) by (apply N.mod_small; dlia).
  rewrite Eh, Em, Es, Ens. repeat split; try lia.
  - exists (is_leap_year y). split; [apply leap_iff|]. repeat split; try lia; clear - HL; dlia.
  - exists (is_leap_year y). split; [apply leap_iff|].
    rewrite Esec, Etot, Edoy.
    assert (X : L = L / 3600 * 3600 + L mod 3600 / 60 * 60 + (L mod 3600) mod 60) by (clear - HL; dlia).
    rewrite X at 1. generalize (L / 3600) (L mod 3600 / 60) ((L mod 3600) mod 60). intros. lia.
Qed.

Lemma try_from_late secs nanos : last_second <= secs -> datetime_try_from (Some (secs, nanos)) = Err YearTooLarge.
Proof.
  intros Hs. cbn [datetime_try_from]. unfold days_to_ymd.
  destruct (days_loop_spec (N.to_nat (65536 - 1970)) 1970 (secs / 86400)) as [_ B]; try lia.
  change (days_before_year 1970) with 0 in B. rewrite N.add_0_l in B. rewrite B; [reflexivity|].
  apply N.div_le_lower_bound; [lia|]. unfold last_second in Hs. lia.
Qed.

(* the specification itself: later calendar dates are later in time *)
Lemma days_before_month_mono lp m m' d : 1 <= m -> m < m' -> m' <= 12 -> 1 <= d <= month_len lp m ->
  days_before_month lp m + (d - 1) < days_before_month lp m'.
Proof.
  intros Hm Hlt Hm' Hd.
  assert (Hs : forallb (fun m => forallb (fun m' => implb (m + 1 <? m' + 1)
     (days_before_month lp (m + 1) + month_len lp (m + 1) <=? days_before_month lp (m' + 1))) (Nseq 12)) (Nseq 12) = true)
    by (destruct lp; vm_compute; reflexivity).
  rewrite forallb_forall in Hs. specialize (Hs (m - 1) ltac:(apply in_Nseq; lia)).
  rewrite forallb_forall in Hs. specialize (Hs (m' - 1) ltac:(apply in_Nseq; lia)).
  replace (m - 1 + 1) with m in Hs by lia. replace (m' - 1 + 1) with m' in Hs by lia.
  destruct (N.ltb_spec m m'); [|lia]. cbn [implb] in Hs. lia.
Qed.
Lemma days_before_month_end (lp : bool) m d : 1 <= m <= 12 -> 1 <= d <= month_len lp m ->
  days_before_month lp m + (d - 1) < (if lp then 366 else 365).
Proof.
  intros Hm Hd.
  assert (Hs : forallb (fun m => days_before_month lp (m + 1) + month_len lp (m + 1) <=? (if lp then 366 else 365)) (Nseq 12) = true)
    by (destruct lp; vm_compute; reflexivity).
  rewrite forallb_forall in Hs. specialize (Hs (m - 1) ltac:(apply in_Nseq; lia)).
  replace (m - 1 + 1) with m in Hs by lia. lia.
Qed.
Lemma lp_unique y lp : (lp = true <-> leap y) -> lp = is_leap_year y.
Proof. intros H. pose proof (leap_iff y). destruct lp, (is_leap_year y); intuition congruence. Qed.

Lemma lex_epoch y m d hh mm ss y' m' d' hh' mm' ss' t t' :
  valid_date y m d hh mm ss -> valid_date y' m' d' hh' mm' ss' ->
  epoch_seconds y m d hh mm ss t -> epoch_seconds y' m' d' hh' mm' ss' t' ->
  lex [y; m; d; hh; mm; ss] [y'; m'; d'; hh'; mm'; ss'] -> t < t'.
Proof.
  intros (lp & Hlp & Hy & Hm & Hd & Hh & Hmi & Hse) (lp' & Hlp' & Hy' & Hm' & Hd' & Hh' & Hmi' & Hse')
         (l1 & Hl1 & ->) (l2 & Hl2 & ->).
  apply lp_unique in Hlp, Hlp', Hl1, Hl2. subst lp lp' l1 l2.
  cbn [lex].
  assert (DAY : forall a b, a < b -> a * 86400 + hh * 3600 + mm * 60 + ss < b * 86400 + hh' * 3600 + mm' * 60 + ss') by (intros; lia).
  intros H; repeat (destruct H as [H|[-> H]]); try lia.
  - apply DAY. pose proof (days_before_month_end (is_leap_year y) m d Hm Hd) as A.
    pose proof (dby_step y Hy) as B. pose proof (dby_mono (y + 1) y' ltac:(lia) ltac:(lia)) as C.
    unfold days_in_year in B. destruct (is_leap_year y); lia.
  - apply DAY. pose proof (days_before_month_mono (is_leap_year y') m m' d ltac:(lia) H ltac:(lia) Hd). lia.
Qed.
Lemma lex_total (a b : list N) : length a = length b -> a = b \/ lex a b \/ lex b a.
Proof.
  revert b; induction a as [|x a IH]; intros [|y b] H; try discriminate; auto.
  cbn [lex]. destruct (N.lt_total x y) as [?|[->|?]]; auto.
  destruct (IH b) as [->|[?|?]]; auto.
Qed.
