(* DateTime_props.v - C31: file timestamps. *)
From Verif Require Import Base Base_lemmas DateTime_model DateTime_spec DateTime_proofs.
Local Open Scope N_scope.

Definition fields (d : FsDateTime) : list N :=
  [dt_year d; dt_month d; dt_day d; dt_hour d; dt_minute d; dt_second d].

(* Every second from the epoch to the end of the year 65535 converts to the valid calendar date and
   time that lies exactly that many seconds after the epoch. *)
Theorem C31_correct_date : forall secs nanos,
  secs < days_before_year 65536 * 86400 -> nanos < 1000000000 ->
  exists d, datetime_try_from (Some (secs, nanos)) = Ok d /\
    valid_date (dt_year d) (dt_month d) (dt_day d) (dt_hour d) (dt_minute d) (dt_second d) /\
    dt_year d <= 65535 /\
    epoch_seconds (dt_year d) (dt_month d) (dt_day d) (dt_hour d) (dt_minute d) (dt_second d) secs /\
    dt_milli d = nanos / 1000000.
Proof. exact try_from_ok. Qed.
(* 29 February 2024 12:34:56.789, and the last representable second *)
Example C31_correct_date_ex :
  datetime_try_from (Some (1709210096, 789000000)) = Ok (mkDateTime 2024 2 29 12 34 56 789).
Proof. vm_compute. reflexivity. Qed.

(* Beyond that range, and before the epoch, the conversion reports an error. *)
Theorem C31_out_of_range : forall secs nanos,
  days_before_year 65536 * 86400 <= secs -> datetime_try_from (Some (secs, nanos)) = Err YearTooLarge.
Proof. exact try_from_late. Qed.
Theorem C31_before_epoch : datetime_try_from None = Err Before1970.
Proof. reflexivity. Qed.

(* A calendar date determines its distance from the epoch and conversely: the conversion gives the
   only valid date for that second. *)
Theorem C31_unique_date : forall y m d hh mm ss y' m' d' hh' mm' ss' t,
  valid_date y m d hh mm ss -> valid_date y' m' d' hh' mm' ss' ->
  epoch_seconds y m d hh mm ss t -> epoch_seconds y' m' d' hh' mm' ss' t ->
  [y; m; d; hh; mm; ss] = [y'; m'; d'; hh'; mm'; ss'].
Proof.
  intros y m d hh mm ss y' m' d' hh' mm' ss' t V V' E E'.
  destruct (lex_total [y; m; d; hh; mm; ss] [y'; m'; d'; hh'; mm'; ss'] eq_refl) as [H|[H|H]]; auto; exfalso.
  - pose proof (lex_epoch _ _ _ _ _ _ _ _ _ _ _ _ _ _ V V' E E' H). lia.
  - pose proof (lex_epoch _ _ _ _ _ _ _ _ _ _ _ _ _ _ V' V E' E H). lia.
Qed.

(* Timestamps are ordered like the times they stand for. *)
Theorem C31_ordered : forall s1 n1 s2 n2 d1 d2, n1 < 1000000000 -> n2 < 1000000000 ->
  datetime_try_from (Some (s1, n1)) = Ok d1 -> datetime_try_from (Some (s2, n2)) = Ok d2 ->
  (s1 < s2 <-> lex (fields d1) (fields d2)).
Proof.
  intros s1 n1 s2 n2 d1 d2 H1 H2 E1 E2.
  destruct (N.ltb_spec s1 (days_before_year 65536 * 86400)) as [L1|L1];
    [|rewrite (try_from_late _ _ L1) in E1; discriminate].
  destruct (N.ltb_spec s2 (days_before_year 65536 * 86400)) as [L2|L2];
    [|rewrite (try_from_late _ _ L2) in E2; discriminate].
  destruct (try_from_ok _ _ L1 H1) as (a & Ea & V1 & _ & P1 & _).
  destruct (try_from_ok _ _ L2 H2) as (b & Eb & V2 & _ & P2 & _).
  rewrite E1 in Ea; injection Ea as <-. rewrite E2 in Eb; injection Eb as <-.
  split; [|apply (lex_epoch _ _ _ _ _ _ _ _ _ _ _ _ _ _ V1 V2 P1 P2)].
  intros Hlt. destruct (lex_total (fields d1) (fields d2) eq_refl) as [H|[H|H]]; auto; exfalso.
  - unfold fields in H. injection H as A B C D E F.
    destruct P1 as (l1 & HL1 & X1), P2 as (l2 & HL2 & X2).
    apply lp_unique in HL1, HL2. subst l1 l2. rewrite A, B, C, D, E, F in X1. lia.
  - pose proof (lex_epoch _ _ _ _ _ _ _ _ _ _ _ _ _ _ V2 V1 P2 P1 H). lia.
Qed.
Example C31_ordered_ex : exists d1 d2, datetime_try_from (Some (951782399, 0)) = Ok d1 /\
  datetime_try_from (Some (951782400, 0)) = Ok d2 /\
  fields d1 = [2000; 2; 28; 23; 59; 59] /\ fields d2 = [2000; 2; 29; 0; 0; 0].
Proof. do 2 eexists. split; [vm_compute; reflexivity|]. split; [vm_compute; reflexivity|]. split; reflexivity. Qed.

(* The calendar specification agrees with the textbook rule, and the day count with adding up years. *)
Theorem C31_calendar_step : forall y (lp : bool), 1970 <= y -> (lp = true <-> leap y) ->
  days_before_year (y + 1) = days_before_year y + (if lp then 366 else 365) /\
  days_before_month lp 12 + month_len lp 12 = (if lp then 366 else 365).
Proof.
  intros y lp Hy Hlp. split; [|destruct lp; reflexivity].
  rewrite dby_step by auto. unfold days_in_year. rewrite <- (lp_unique y lp Hlp). reflexivity.
Qed.
Print Assumptions C31_correct_date.
Print Assumptions C31_out_of_range.
Print Assumptions C31_before_epoch.
Print Assumptions C31_unique_date.
Print Assumptions C31_ordered.
Print Assumptions C31_calendar_step.
