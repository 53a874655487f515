(* SectorView_model.v - src/sector_view.rs 30-298: a disk image used as a flat file (Read + Write + Seek).
   The lock around the image (disk_lock.rs) is not modelled: the view has the image to itself.
   std::io::Error values are reduced to IoError; sector errors keep their kind.  No proofs here. *)
From Coq Require Import List.
From Verif Require Import Base Chs_model Types_model DiskImage_model Format_model.
Import ListNotations.
Local Open Scope N_scope.

(* 48-59 (spt and sector_size are functions of the format) *)
Record View : Set := mkView {
  v_disk : DiskImage; v_fmt : StandardFormat; v_ch : DiskCh; v_sid : N; v_buf : list N; v_dirty : bool; v_byte : N; v_eod : bool }.
Definition v_with_cursor (v : View) (ch : DiskCh) (sid : N) : View :=
  mkView (v_disk v) (v_fmt v) ch sid (v_buf v) (v_dirty v) (v_byte v) (v_eod v).
Definition v_with_byte (v : View) (b : N) : View :=
  mkView (v_disk v) (v_fmt v) (v_ch v) (v_sid v) (v_buf v) (v_dirty v) b (v_eod v).
Definition v_with_eod (v : View) (e : bool) : View :=
  mkView (v_disk v) (v_fmt v) (v_ch v) (v_sid v) (v_buf v) (v_dirty v) (v_byte v) e.
Definition v_layout (v : View) : SectorLayout := sf_layout (v_fmt v).
Definition v_chs (v : View) : DiskChs := mkChs (ch_c (v_ch v)) (ch_h (v_ch v)) (v_sid v).
(* 90-95 chsn() and SectorIdQuery::from: every field is given; n is that of the format *)
Definition v_query (v : View) : DiskChsnQuery :=
  mkQuery (Some (ch_c (v_ch v))) (Some (ch_h (v_ch v))) (v_sid v) (Some (bytes_to_n (l_size (v_layout v)))).
(* 161-172: extend with zeros or trim to the sector size *)
Definition fit (n : nat) (l : list N) : list N := firstn n (l ++ repeat 0 n).
(* 149-179 read_sector *)
Definition v_read_sector (rnd : Rnd) (v : View) (sid : N) : View * outcome unit :=
  let v := v_with_byte (v_with_cursor v (v_ch v) sid) 0 in
  match di_read_sector_basic rnd (v_disk v) (v_ch v) (v_query v) None with
  | Ok b => (mkView (v_disk v) (v_fmt v) (v_ch v) sid (fit (N.to_nat (l_size (v_layout v))) b) false 0 false, Ok tt)
  | Err e => (v, Err e)
  | Panic => (v, Panic)
  end.
(* 183-194 commit_sector *)
Definition v_commit (v : View) : View * outcome unit :=
  if v_dirty v
  then let (d, r) := di_write_sector_basic (v_disk v) (v_ch v) (v_query v) None (v_buf v) in
       match r with
       | Ok tt => (mkView d (v_fmt v) (v_ch v) (v_sid v) (v_buf v) false (v_byte v) (v_eod v), Ok tt)
       | r => (mkView d (v_fmt v) (v_ch v) (v_sid v) (v_buf v) (v_dirty v) (v_byte v) (v_eod v), r)
       end
  else (v, Ok tt).
(* 62-84 new *)
Definition v_new (rnd : Rnd) (d : DiskImage) (f : StandardFormat) : outcome View :=
  match v_read_sector rnd (mkView d f (mkCh 0 0) 1 (repeat 0 (N.to_nat (sf_sector_size f))) false 0 false) 1 with
  | (v, Ok tt) => Ok v
  | (_, Err e) => Err e
  | (_, Panic) => Panic
  end.
(* 106-142 seek_to_offset *)
Definition v_seek_to (rnd : Rnd) (v : View) (offset : N) : View * outcome N :=
  match from_raw_offset offset (v_layout v) with
  | Panic => (v, Panic)
  | Err e => (v, Err e)
  | Ok None => (v, Err IoError)
  | Ok (Some (x, b)) =>
      if (ch_c (v_ch v) =? chs_c x) && (ch_h (v_ch v) =? chs_h x) && (v_sid v =? chs_s x)
      then (v_with_byte v b, Ok offset)
      else
        let v := v_with_cursor v (mkCh (chs_c x) (chs_h x)) (v_sid v) in
        match v_commit v with
        | (v, Ok tt) =>
            match v_read_sector rnd v (chs_s x) with
            | (v, Ok tt) => (v_with_byte v b, Ok offset)
            | (v, Err e) => (v, Err e)
            | (v, Panic) => (v, Panic)
            end
        | (v, Err e) => (v, Err e)
        | (v, Panic) => (v, Panic)
        end
  end.
(* 144-147 offset *)
Definition v_offset (v : View) : N :=
  match to_raw_offset (v_chs v) (v_layout v) with Some o => o | None => 0 end + v_byte v.
(* 98-105 seek_to_chs *)
Definition v_seek_to_chs (rnd : Rnd) (v : View) (x : DiskChs) : View * outcome N :=
  match to_raw_offset x (v_layout v) with Some o => v_seek_to rnd v o | None => (v, Err IoError) end.
(* 196-213 next_sector: the cursor moves first, then the buffer is committed.  `sector_id_cursor += 1` is u8
   arithmetic, at most 37. *)
Definition v_next_sector (rnd : Rnd) (v : View) : View * outcome unit :=
  let v := if l_s (v_layout v) <? v_sid v + 1
           then let (ch, moved) := seek_next_track (v_ch v) (sf_ch (v_fmt v)) in v_with_eod (v_with_cursor v ch 1) (negb moved)
           else v_with_cursor v (v_ch v) (v_sid v + 1) in
  match v_commit v with
  | (v, Ok tt) => if v_eod v then (v, Ok tt) else v_read_sector rnd v (v_sid v)
  | r => r
  end.
(* 217-239 read and 243-266 write, one byte at a time.  A byte at the end of the buffer needs one next_sector
   (the buffer of a sector just read is not empty: its length is the sector size). *)
Definition v_fill (rnd : Rnd) (v : View) : View * outcome unit :=
  if v_byte v <? N.of_nat (length (v_buf v)) then (v, Ok tt) else v_next_sector rnd v.
Fixpoint v_read (rnd : Rnd) (n : nat) (v : View) : View * outcome (list N) :=
  match n with
  | O => (v, Ok [])
  | S k =>
      if v_eod v then (v, Ok []) else
      match v_fill rnd v with
      | (v, Ok tt) =>
          if v_eod v then (v, Ok []) else
          match nth_error (v_buf v) (N.to_nat (v_byte v)) with
          | Some b => let (v, r) := v_read rnd k (v_with_byte v (v_byte v + 1)) in (v, omap (cons b) r)
          | None => (v, Panic)
          end
      | (v, Err e) => (v, Err e)
      | (v, Panic) => (v, Panic)
      end
  end.
Definition v_put (v : View) (b : N) : View :=
  mkView (v_disk v) (v_fmt v) (v_ch v) (v_sid v) (upd (v_buf v) (N.to_nat (v_byte v)) b) true (v_byte v + 1) (v_eod v).
Fixpoint v_write (rnd : Rnd) (buf : list N) (v : View) : View * outcome N :=
  match buf with
  | [] => (v, Ok 0)
  | b :: t =>
      if v_eod v then (v, Ok 0) else
      match v_fill rnd v with
      | (v, Ok tt) =>
          if v_eod v then (v, Ok 0) else
          let (v, r) := v_write rnd t (v_put v b) in (v, omap (fun n => n + 1) r)
      | (v, Err e) => (v, Err e)
      | (v, Panic) => (v, Panic)
      end
  end.
(* 268-272 *)
Definition v_flush (v : View) : View * outcome unit := v_commit v.
(* 275-298 seek; saturating_add_signed (usize::MAX is beyond every disk) *)
Inductive SeekFrom : Set := FromStart (o : N) | FromEnd (z : Z) | FromCurrent (z : Z).
Definition add_signed (a : N) (z : Z) : N := Z.to_N (Z.of_N a + z).
Definition v_seek (rnd : Rnd) (v : View) (s : SeekFrom) : View * outcome N :=
  v_seek_to rnd v (match s with
                   | FromStart o => o
                   | FromEnd z => add_signed (sf_disk_size (v_fmt v)) z
                   | FromCurrent z => add_signed (v_offset v) z
                   end).
