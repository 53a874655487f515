(* DateTime_model.v - src/file_system/date_time.rs (conversion from a system time). *)
From Verif Require Import Base.
Local Open Scope N_scope.

(* date_time.rs:47-56 FsDateTime *)
Record FsDateTime : Set := mkDateTime {
  dt_year : N; dt_month : N; dt_day : N; dt_hour : N; dt_minute : N; dt_second : N; dt_milli : N }.

(* date_time.rs:215-228 is_leap_year *)
Definition is_leap_year (year : N) : bool :=
  if year mod 400 =? 0 then true
  else if year mod 100 =? 0 then false
  else if year mod 4 =? 0 then true else false.

(* date_time.rs:205-212 days_in_year *)
Definition days_in_year (y : N) : N := if is_leap_year y then 366 else 365.

(* date_time.rs:156-173 days_to_ymd; the loop runs at most 65536-1970 times because it stops at
   year 65535.  The fuel below is exactly that number; exhausting it is a Panic (proved unreachable). *)
Fixpoint days_loop (fuel : nat) (year days : N) : outcome (N * N) :=
  match fuel with
  | O => Panic
  | S f =>
      let year_days := days_in_year year in
      if days <? year_days then Ok (year, days)
      else if year =? 65535 then Err YearTooLarge
      else days_loop f (year + 1) (days - year_days)
  end.
Definition days_to_ymd (days : N) : outcome (N * N) := days_loop (N.to_nat (65536 - 1970)) 1970 days.

(* date_time.rs:189-198 the month loop *)
Fixpoint month_loop (lens : list N) (i leftover : N) : outcome (N * N) :=
  match lens with
  | [] => Err InternalOutOfRange
  | mlen :: t => if leftover <? mlen then Ok (i + 1, leftover + 1) else month_loop t (i + 1) (leftover - mlen)
  end.
(* date_time.rs:179-202 day_of_year_to_month_day *)
Definition day_of_year_to_month_day (year doy : N) : outcome (N * N) :=
  let lens := if is_leap_year year then [31; 29; 31; 30; 31; 30; 31; 31; 30; 31; 30; 31]
              else [31; 28; 31; 30; 31; 30; 31; 31; 30; 31; 30; 31] in
  month_loop lens 0 doy.

(* date_time.rs:106-151 TryFrom<SystemTime>; the system time is given as its offset from the Unix
   epoch: None before the epoch, else whole seconds and nanoseconds (std's Duration). *)
Definition datetime_try_from (st : option (N * N)) : outcome FsDateTime :=
  match st with
  | None => Err Before1970
  | Some (total_secs, nanos) =>
      let millis := nanos / 1000000 in
      let days := total_secs / 86400 in
      let leftover := total_secs mod 86400 in
      let hour := as_u8 (leftover / 3600) in
      let leftover := leftover mod 3600 in
      let minute := as_u8 (leftover / 60) in
      let second := as_u8 (leftover mod 60) in
      let! (year, doy) := days_to_ymd days in
      let! (month, day) := day_of_year_to_month_day year doy in
      Ok (mkDateTime year month day hour minute second (as_u16 millis))
  end.
