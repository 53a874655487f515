(* Tc_model.v - src/file_parsers/tc.rs: the TransCopy loader.  A file is the list of its bytes.  Not modelled: comments, logging
   (the arguments of log::trace!, which panic for a file without tracks when trace logging is on), data rate, RPM and density. *)
From Verif Require Import Base Chs_model BitRing_model Mfm_model Types_model System34_model BitStream_model DiskImage_model Raw_model F86_model.
Import ListNotations.

Definition read_be16 (rest : list N) : outcome (N * list N) :=
  match rest with a :: b :: t => Ok (256 * a + b, t)%N | _ => Err IoError end.
(* binrw: an array of n u16 *)
Fixpoint read_table (rd : list N -> outcome (N * list N)) (n : nat) (rest : list N) : outcome (list N * list N) :=
  match n with
  | O => Ok ([], rest)
  | S n => let! (x, rest) := rd rest in let! (xs, rest) := read_table rd n rest in Ok (x :: xs, rest)
  end.
(* iter().take_while(|v| *v != stop).count() *)
Fixpoint count_until (stop : N) (l : list N) : nat :=
  match l with x :: l => if (x =? stop)%N then 0 else S (count_until stop l) | [] => 0 end.
(* tc.rs 95-127: TCFileHeader and TCDiskInfo *)
Record TcInfo : Set := mkTcInfo {
  tc_type : N; tc_start : N; tc_sides : N; tc_incr : N; tc_skews : list N; tc_offsets : list N; tc_sizes : list N; tc_flags : list N }.
Definition tc_header (file : list N) : outcome (list N * list N) :=
  match read_exact 256 file with Ok x => Ok x | Err _ => Err UnsupportedFormat | Panic => Panic end.
Definition tc_info (rest : list N) : outcome TcInfo :=
  match
    (let! (f, rest) := read_exact 5 rest in
     let! (skews, rest) := read_table read_le16 256 rest in
     let! (offs, rest) := read_table read_be16 256 rest in
     let! (sizes, rest) := read_table read_le16 256 rest in
     let! (flags, _) := read_table read_le16 256 rest in
     Ok (mkTcInfo (nth 0 f 0%N) (nth 1 f 0%N) (nth 3 f 0%N) (nth 4 f 0%N) skews offs sizes flags))
  with Ok x => Ok x | Err _ => Err FormatParseError | Panic => Panic end.
(* tc.rs 315-355: checks of one track *)
Fixpoint tc_check (ts : list (N * N)) (file_len : N) : outcome unit :=
  match ts with
  | [] => Ok tt
  | (off, size) :: ts =>
      let off := (off * 256)%N in
      if (off =? 0)%N || (size =? 0)%N then Err IncompatibleImage
      else if (file_len <? off + size)%N then Err IncompatibleImage
      else tc_check ts file_len
  end.
(* tc.rs 388-424: the tracks, numbered from i *)
Fixpoint tc_tracks (rnd : Rnd) (file : list N) (sides : N) (ts : list (N * N)) (i : nat) (head : N) (d : DiskImage) : outcome DiskImage :=
  match ts with
  | [] => Ok d
  | (off, size) :: ts =>
      let cyl := as_u16 (N.of_nat (if (sides =? 1)%N then i else i / 2)) in
      let! (data, _) := read_exact (N.to_nat size) (skipn (N.to_nat (off * 256)) file) in
      let (d, r) := add_track_bitstream rnd d (mkCh cyl head) data None None true in
      let! _ := r in
      tc_tracks rnd file sides ts (S i) (if (head + 1 =? sides)%N then 0 else head + 1)%N d
  end.
(* tc.rs 204-441 load_image *)
Definition tc_load_image (rnd : Rnd) (d : DiskImage) (file : list N) : outcome DiskImage :=
  let! (h, rest) := tc_header file in
  if negb ((nth 0 h 0 =? 0x5A) && (nth 1 h 0 =? 0xA5))%N then Err UnsupportedFormat else
  let! i := tc_info rest in
  if negb (existsb (N.eqb (tc_type i)) [0xFF; 0x02; 0x03; 0x07]%N) then Err IncompatibleImage else
  if negb (tc_start i =? 0)%N then Err IncompatibleImage else
  if negb (tc_incr i =? 1)%N then Err IncompatibleImage else
  let ct := count_until 0x3333 (tc_sizes i) in
  if negb (count_until 0x1111 (tc_skews i) =? ct) || negb (count_until 0 (tc_offsets i) =? ct) || negb (count_until 0x4444 (tc_flags i) =? ct)
  then Err IncompatibleImage else
  let ct := 2 * (ct / 2) in                                  (* & !0x01 *)
  let ts := firstn ct (combine (tc_offsets i) (tc_sizes i)) in
  let! _ := tc_check ts (N.of_nat (length file)) in
  if negb ((tc_sides i =? 1) || (tc_sides i =? 2))%N then Err IncompatibleImage else
  let! d := tc_tracks rnd file (tc_sides i) ts 0 0 d in
  Ok (with_geom d (mkCh (as_u16 (N.of_nat ct / tc_sides i)) (tc_sides i))).
