(* BitStream_model.v - src/track/bitstream.rs: BitStreamTrack over an MFM codec, with the System 34
   schema as the only compiled-in schema (feature "amiga" off).  Not modelled: data rate, rpm, the
   shared write counter, hash, GCR and FM codecs, set_track_padding (diagnostic only). *)
From Verif Require Import Base Chs_model BitRing_model RangeCheck_model Mfm_model Crc_model Types_model System34_model.

(* bitstream.rs 78-88; bt_schema = true is Some(System34), false is None *)
Record BitTrack : Set := mkTrack {
  bt_ch : DiskCh; bt_data : Mfm; bt_meta : Metadata; bt_schema : bool }.
Definition with_data (t : BitTrack) (m : Mfm) : BitTrack := mkTrack (bt_ch t) m (bt_meta t) (bt_schema t).
Definition with_meta (t : BitTrack) (md : Metadata) : BitTrack := mkTrack (bt_ch t) (bt_data t) md (bt_schema t).

(* bitstream.rs 124-136 info().sector_ct, 142-150, 152-163, 165-166 *)
Definition bt_sector_ct (t : BitTrack) : nat :=
  length (filter (fun i => is_sector_header (i_elem i)) (md_items (bt_meta t))).
Definition bt_has_sector_id (t : BitTrack) (id : N) : bool :=
  existsb (fun i => match i_elem i with
                    | ElMarker Idam => match i_chsn i with Some c => (chsn_s c =? id)%N | None => false end
                    | _ => false end) (md_items (bt_meta t)).
Definition bt_sector_list (t : BitTrack) : list SectorMapEntry := meta_sector_list (bt_meta t).
(* bitstream.rs 200-202 *)
Definition bt_add_sector (t : BitTrack) (p : AddSectorParams) : outcome BitTrack := Err UnsupportedFormat.

Definition off_of (o : option nat) : nat := match o with Some x => x | None => 0 end.

(* bitstream.rs 1289-1301 *)
Definition scan_sector_element (t : BitTrack) (q : DiskChsnQuery) (index : nat) : outcome ScanResult :=
  if bt_schema t then Ok (find_sector_element q (md_items (bt_meta t)) index) else Err UnsupportedFormat.

(* bitstream.rs 212-384 *)
Definition bt_read_sector (rnd : nat -> bool) (t : BitTrack) (q : DiskChsnQuery) (n : option N)
    (offset : option nat) (scope : RwScope) (debug : bool) : outcome ReadSectorResult :=
  if negb (bt_schema t) then Err SchemaError else
  let! r := scan_sector_element t q (off_of offset) in
  match r with
  | Found ei chsn ae de del no_dam last =>
      if no_dam then
        Ok (mkRead (Some chsn) true no_dam false ae None false None false false false last (0, 0) [])
      else if ae && negb debug then
        Ok (mkRead (Some chsn) true false false true None false None false false false false (0, 0) [])
      else
        let! i := oindex (md_items (bt_meta t)) ei in
        let size := elem_size (i_elem i) in
        let range := elem_range (i_elem i) scope in
        let overhead := size - (snd range - fst range) in
        let len := match n with
                   | Some nv => N.to_nat (n_to_bytes nv) + overhead
                   | None => n_size chsn + overhead
                   end in
        let! (buf, _, crc) := decode_element rnd (bt_data t) i scope len in
        match crc with
        | None => Panic
        | Some crc =>
            Ok (mkRead (Some chsn) false false del ae None de (Some crc) false false false last range buf)
        end
  | NotFound wc bc wh =>
      Ok (mkRead None true false false false None false None wc bc wh false (0, 0) [])
  end.

(* bitstream.rs 386-396 with track/mod.rs 132-162 *)
Definition bt_scan_sector (t : BitTrack) (q : DiskChsnQuery) (offset : option nat) : outcome ScanSectorResult :=
  let! r := scan_sector_element t q (off_of offset) in
  Ok (match r with
      | Found _ _ ae de del no_dam _ => mkScan false no_dam del ae de false false false
      | NotFound wc bc wh => mkScan true false false false false wc bc wh
      end).

(* bitstream.rs 474-620; `scope` is ignored by encode_element.  bad_cylinder is never set for a found sector. *)
Definition bt_write_sector (t : BitTrack) (q : DiskChsnQuery) (offset : option nat) (data : list N)
    (scope : RwScope) (write_deleted debug : bool) : outcome (BitTrack * WriteSectorResult) :=
  if negb (bt_schema t) then Err SchemaError else
  let! r := scan_sector_element t q (off_of offset) in
  match r with
  | Found ei chsn ae de del no_dam last =>
      if no_dam then Ok (t, mkWrite false true ae false false false)
      else
        let wc := opt_ne (q_c q) (chsn_c chsn) in
        let wh := opt_ne (q_h q) (chsn_h chsn) in
        if ae && negb debug then Ok (t, mkWrite false false ae wc false wh)
        else if negb (Bool.eqb write_deleted del) then Err ParameterError
        else if negb (n_size chsn =? length data) then Err ParameterError
        else
          let! i := oindex (md_items (bt_meta t)) ei in
          let! (m, i', _) := encode_element (bt_data t) i data in
          let md := bt_meta t in
          Ok (mkTrack (bt_ch t) m (mkMeta (upd (md_items md) ei i') (md_ids md) (md_valid_ids md)) (bt_schema t),
              mkWrite false false false wc false wh)
  | NotFound wc bc wh => Ok (t, mkWrite true false false wc bc wh)
  end.

(* bitstream.rs 622-639 *)
Definition bt_recalculate_crc (rnd : nat -> bool) (t : BitTrack) (q : DiskChsnQuery) (offset : option nat)
  : outcome BitTrack :=
  let! rr := bt_read_sector rnd t q None offset DataOnly false in
  let! data := read_data_of rr in
  let! (t', _) := bt_write_sector t q offset data CrcOnly (rs_deleted rr) false in
  Ok t'.

(* bitstream.rs 1224-1273 *)
Fixpoint next_sector_loop (index : nat) (items : list Inst) (ei : nat) (idam : option DiskChsn) : ScanResult :=
  match items with
  | [] => NotFound false false false
  | i :: t =>
      if i_start i <? index then next_sector_loop index t (S ei) idam
      else match i_elem i with
           | ElMarker Idam => next_sector_loop index t (S ei) (i_chsn i)
           | ElData _ ae de del =>
               match idam with
               | Some c => Found ei c ae de del false (i_last i)
               | None => next_sector_loop index t (S ei) idam
               end
           | _ => next_sector_loop index t (S ei) idam
           end
  end.
Definition bt_next_sector (t : BitTrack) (index : nat) : ScanResult :=
  next_sector_loop index (md_items (bt_meta t)) 0 None.

(* bitstream.rs 1197-1203; errors other than panics become BitstreamError at the call site *)
Definition read_exact_at (rnd : nat -> bool) (m : Mfm) (off n : nat) : outcome (list N * Mfm) :=
  match mfm_seek_start m off with
  | Ok m => match mfm_read rnd n m with Ok x => Ok x | Err _ => Err BitstreamError | Panic => Panic end
  | Err _ => Err BitstreamError
  | Panic => Panic
  end.
(* bitstream.rs 653-729; the loop is bounded by fuel (an endless loop is a Panic) *)
Fixpoint read_all_loop (rnd : nat -> bool) (fuel : nat) (t : BitTrack) (len : nat) (eot : N)
    (r : ScanResult) (acc : ReadTrackResult) : outcome (ReadTrackResult * BitTrack) :=
  match r with
  | NotFound _ _ _ => Ok (acc, t)
  | Found ei chsn ae de del _ _ =>
      match fuel with
      | O => Panic
      | S f =>
          let! i := oindex (md_items (bt_meta t)) ei in
          let! (data, m) := read_exact_at rnd (bt_data t) (i_start i + 64) len in
          let t := with_data t m in
          let acc := mkTrackRead false (rt_deleted acc || del) (rt_address_crc_error acc || ae)
                       (rt_data_crc_error acc || de) (N.min 65535 (rt_sectors_read acc + 1))
                       (rt_buf acc ++ data) 0 0 in
          if (chsn_s chsn =? eot)%N then Ok (acc, t)
          else read_all_loop rnd f t len eot (bt_next_sector t (i_end i)) acc
      end
  end.
Definition bt_read_all (rnd : nat -> bool) (t : BitTrack) (n eot : N) : outcome (ReadTrackResult * BitTrack) :=
  let! (acc, t) := read_all_loop rnd (S (length (md_items (bt_meta t)))) t (N.to_nat (n_to_bytes n)) eot
                     (bt_next_sector t 0) (mkTrackRead true false false false 0 [] 0 0) in
  let len := length (rt_buf acc) in
  Ok (mkTrackRead (rt_not_found acc) (rt_deleted acc) (rt_address_crc_error acc) (rt_data_crc_error acc)
        (rt_sectors_read acc) (rt_buf acc) (len * 16) len, t).

(* bitstream.rs 731-755 *)
Fixpoint next_id_loop (s : N) (ids : list DiskChsn) (matched : bool) : option DiskChsn + bool :=
  match ids with
  | [] => inr matched
  | id :: t => if matched then inl (Some id) else next_id_loop s t (chsn_s id =? s)%N
  end.
Definition bt_next_id (t : BitTrack) (chs : DiskChs) : option DiskChsn :=
  match md_ids (bt_meta t) with
  | [] => None
  | first :: _ =>
      match next_id_loop (chs_s chs) (md_ids (bt_meta t)) false with
      | inl r => r
      | inr true => Some first
      | inr false => None
      end
  end.

(* bitstream.rs 757-797; the returned codec is unchanged *)
Definition bt_read (rnd : nat -> bool) (t : BitTrack) (offset : option Z) (overdump : option nat)
  : outcome ReadTrackResult :=
  let len := mfm_len (bt_data t) in
  let data_size := len / 16 + (if 0 <? len mod 16 then 1 else 0) in
  let dump := data_size + off_of overdump in
  let! index :=
    match offset with
    | None => Ok 0
    | Some o =>
        if (o <? 0)%Z then
          let i := (Z.of_nat len + o)%Z in
          if (i <? 0)%Z then Err ParameterError else Ok (Z.to_nat i)
        else if (Z.of_nat len <=? o)%Z then Err ParameterError else Ok (Z.to_nat o)
    end in
  let! buf := read_decoded_buf rnd (bt_data t) dump index in
  Ok (mkTrackRead false false false false 0 buf len data_size).

(* BitVec::to_bytes: the last byte is padded with zero bits *)
Fixpoint to_bytes_loop (fuel : nat) (l : list bool) : list N :=
  match fuel, l with
  | _, [] | O, _ => []
  | S f, _ => bits_val (firstn 8 (l ++ repeat false 8)) :: to_bytes_loop f (skipn 8 l)
  end.
Definition to_bytes (l : list bool) : list N := to_bytes_loop (length l) l.
(* bitstream.rs 799-817 *)
Definition bt_read_raw (t : BitTrack) : ReadTrackResult :=
  let len := mfm_len (bt_data t) in
  mkTrackRead false false false false 0 (to_bytes (mfm_data (bt_data t))) len
              (len / 8 + (if 0 <? len mod 8 then 1 else 0)).

Definition set_clock_bits (m : Mfm) (cm : list bool) : Mfm :=
  with_clock m (mkRing cm (r_wrap (m_clock m)) (r_cursor (m_clock m)) (r_wrapv (m_clock m))).

(* bitstream.rs 823-868 *)
Definition bt_format (rnd : nat -> bool) (t : BitTrack) (std : Standard) (ids : list DiskChsn)
    (pat : list N) (gap3 : nat) : outcome BitTrack :=
  let! (bytes, marks) := format_track_as_bytes std (mfm_len (bt_data t)) ids pat gap3 in
  let m := mfm_replace (bt_data t) (mfm_encode bytes false EData) in
  let! m := set_track_markers m marks in
  let! markers := scan_markers m in
  let! cm := create_clock_map markers (r_bits (m_clock m)) in
  let m := set_clock_bits m cm in
  let! (items, m) := scan_metadata rnd m markers in
  let md := meta_new items in
  let m := match data_ranges md with [] => m | rs => set_data_ranges m rs end in
  Ok (mkTrack (bt_ch t) m md (bt_schema t)).

(* bitstream.rs 870-873 *)
Definition bt_analysis (t : BitTrack) : outcome TrackAnalysis :=
  if bt_schema t then analyze_elements (md_items (bt_meta t)) (md_ids (bt_meta t)) else Err SchemaError.

(* bitstream.rs 896-1116, TrackDataEncoding::Mfm.  WEAK_BIT_RUN = 6 (mfm.rs). *)
Definition bt_new (rnd : nat -> bool) (ch : DiskCh) (data : list N) (weak : option (list N))
    (bitcell_ct : option nat) (detect_weak : bool) : outcome BitTrack :=
  if match weak with Some w => negb (length data =? length w) | None => false end then Err ParameterError else
  let! bits :=
    match data with
    | [] => match bitcell_ct with
            | Some n => Ok (map (fun i => i mod 2 =? 0) (seq 0 n))
            | None => Err ParameterError
            end
    | _ => Ok (flat_map byte_bits data)
    end in
  let! m := mfm_new bits bitcell_ct (option_map (flat_map byte_bits) weak) in
  let! m := match weak with
            | Some _ => Ok m
            | None => if detect_weak
                      then let! w := create_weak_bit_mask m 6 in
                           match mfm_set_weak_mask_checked m w with Ok m' => Ok m' | Err _ => Ok m | Panic => Panic end
                      else Ok m
            end in
  let! markers := scan_markers m in
  match markers with
  | [] => Ok (mkTrack ch m meta_default false)
  | _ =>
      let! cm := create_clock_map markers (r_bits (m_clock m)) in
      let m := set_clock_bits m cm in
      let! (items, m) := scan_metadata rnd m markers in
      let md := meta_new items in
      let m := match data_ranges md with [] => m | rs => set_data_ranges m rs end in
      Ok (mkTrack ch m md true)
  end.

(* bitstream.rs 1124-1167 *)
Definition bt_rescan (rnd : nat -> bool) (t : BitTrack) : outcome BitTrack :=
  let m := bt_data t in
  let! markers := scan_markers m in
  let! m := match markers with
            | [] => Ok m
            | _ => let! cm := create_clock_map markers (r_bits (m_clock m)) in Ok (set_clock_bits m cm)
            end in
  let! (items, m) := scan_metadata rnd m markers in
  let md := meta_new items in
  match md_valid_ids md with
  | [] => Ok (mkTrack (bt_ch t) m meta_default (bt_schema t))
  | _ => let m := match data_ranges md with [] => m | rs => set_data_ranges m rs end in
         Ok (mkTrack (bt_ch t) m md (bt_schema t))
  end.

(* bitstream.rs 1118-1120 *)
Definition bt_set_schema (t : BitTrack) : BitTrack := mkTrack (bt_ch t) (bt_data t) (bt_meta t) true.

(* bitstream.rs 1303-1313 *)
Definition bt_set_weak_mask (t : BitTrack) (mask : list bool) (offset : nat) : BitTrack :=
  let old := r_bits (m_weak (bt_data t)) in
  let new := fold_left (fun l '(i, b) => upd l (i + offset) b) (combine (seq 0 (length mask)) mask) old in
  with_data t (mfm_set_weak_mask (bt_data t) new).

(* bitstream.rs 1328-1343: i32 *)
Definition bt_quality_score (t : BitTrack) : Z :=
  fold_left (fun s e => (s + 5 - (if at_address_error (me_attr e) then 5 else 0)
                           - (if at_data_error (me_attr e) then 1 else 0))%Z) (bt_sector_list t) 0%Z.
