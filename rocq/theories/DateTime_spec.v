(* DateTime_spec.v - the proleptic Gregorian calendar, in closed form; uses no model code. *)
From Verif Require Import Base.
Local Open Scope N_scope.

Definition leap (y : N) : Prop := y mod 4 = 0 /\ (y mod 100 <> 0 \/ y mod 400 = 0).
(* Leap years among 1..y *)
Definition leaps_upto (y : N) : N := y / 4 - y / 100 + y / 400.
(* Days from 1970-01-01 to y-01-01 *)
Definition days_before_year (y : N) : N := 365 * (y - 1970) + (leaps_upto (y - 1) - leaps_upto 1969).
Definition month_len (lp : bool) (m : N) : N :=
  if m =? 2 then if lp then 29 else 28
  else if (m =? 4) || (m =? 6) || (m =? 9) || (m =? 11) then 30 else 31.
Definition days_before_month (lp : bool) (m : N) : N :=
  fold_right N.add 0 (map (fun i => month_len lp (i + 1)) (Nseq (m - 1))).
(* A calendar date and time of day, as plain numbers. *)
Definition valid_date (y m d hh mm ss : N) : Prop :=
  exists lp : bool, (lp = true <-> leap y) /\
  1970 <= y /\ 1 <= m <= 12 /\ 1 <= d <= month_len lp m /\ hh < 24 /\ mm < 60 /\ ss < 60.
(* t is the number of seconds from the epoch to that date and time. *)
Definition epoch_seconds (y m d hh mm ss t : N) : Prop :=
  exists lp : bool, (lp = true <-> leap y) /\
  t = (days_before_year y + days_before_month lp m + (d - 1)) * 86400 + hh * 3600 + mm * 60 + ss.
(* Earlier in time: lexicographic comparison of year, month, ..., second. *)
Fixpoint lex (a b : list N) : Prop :=
  match a, b with x :: a, y :: b => x < y \/ x = y /\ lex a b | _, _ => False end.
