(* Amiga_model.v - src/track_schema/amiga.rs (AmigaSchema, the Amiga trackdisk format), its dispatch in
   src/track_schema/dispatch.rs, TrackMetadata over Amiga elements (src/track_schema/mod.rs), and
   BitStreamTrack (src/track/bitstream.rs) over a track whose schema is Amiga, as built with the default
   feature set ("amiga" enabled), for MFM tracks.  Not modelled: the element source map (display only),
   logging, the shared write counter, data rate and rpm. *)
From Verif Require Import Base Chs_model BitRing_model RangeCheck_model Mfm_model Crc_model Types_model System34_model
  BitStream_model OddEven_model.

(* amiga.rs 91-92 *)
Definition AMIGA_DAM_MARKER : N := 0x2AAAAAAA44894489%N.
Definition AMIGA_DAM_MASK : N := 0x7FFFFFFFFFFFFFFF%N.
(* mfm.rs 50-54 *)
Definition mfm_offset (n : nat) : nat := n * 16.

(* amiga.rs 171-177; the marker variant is never constructed by the scanner *)
Inductive AmElem : Set :=
| AmMarker
| AmHeader (chsn : DiskChsn) (address_error data_missing : bool)
| AmData (chsn : DiskChsn) (address_error data_error : bool).
(* mod.rs 451-466 *)
Record AmInst : Set := mkAi { ai_elem : AmElem; ai_start : nat; ai_end : nat; ai_chsn : option DiskChsn; ai_last : bool }.

(* amiga.rs 201-225 *)
Definition am_size (e : AmElem) : nat :=
  match e with AmMarker => 2 | AmData _ _ _ => 4 + 512 | AmHeader _ _ _ => 2 + 4 + 16 + 4 end.
(* amiga.rs 228-247 *)
Definition am_range (e : AmElem) (scope : RwScope) : nat * nat :=
  match e, scope with
  | AmData _ _ _, DataOnly => (4, am_size e)
  | AmData _ _ _, CrcOnly => (0, 4)
  | AmHeader _ _ _, CrcOnly => (am_size e - 4, am_size e)
  | _, _ => (0, am_size e)
  end.

(* amiga.rs 431-450 *)
Definition am_find_next_marker (m : Mfm) (off : nat) : outcome (option nat) :=
  let! r := find_marker m (mkMarker AMIGA_DAM_MARKER AMIGA_DAM_MASK 32) off None in
  Ok (option_map fst r).
(* amiga.rs 715-735; an endless loop is a Panic *)
Fixpoint am_scan_loop (fuel : nat) (m : Mfm) (cursor : nat) (acc : list nat) : outcome (list nat) :=
  match fuel with
  | O => Panic
  | S f =>
      let! r := am_find_next_marker m cursor in
      match r with
      | Some off => am_scan_loop f m (off + 4 * MFM_BYTE_LEN) (acc ++ [off])
      | None => Ok acc
      end
  end.
Definition am_scan_markers (m : Mfm) : outcome (list nat) := am_scan_loop (S (mfm_len m)) m 0 [].

(* amiga.rs 899-932 *)
Definition am_clock_step (st : list bool * nat) (start : nat) : outcome (list bool * nat) :=
  let '(cm, last) := st in
  if 0 <? last then
    let! cm := bits_set cm (last - 1) false in
    let! cm := alternate cm last start in Ok (cm, start)
  else Ok (cm, start).
Definition am_create_clock_map (markers : list nat) (cm : list bool) : outcome (list bool) :=
  let! (cm, last) := ofold am_clock_step markers (cm, 0) in
  let! cm := (if 0 <? last then bits_set cm (last - 1) false else Ok cm) in
  if length cm =? 0 then Panic else alternate cm last (length cm - 1).

(* u32::from_be_bytes on the first four bytes (indexing panics on shorter buffers) *)
Definition be32_of (l : list N) : outcome N :=
  let! a := oindex l 0 in let! b := oindex l 1 in let! c := oindex l 2 in let! d := oindex l 3 in
  Ok (be32 a b c d).
(* amiga.rs 740-776; the decoded copy is only logged, but it is read *)
Definition am_decode_interleaved_u32 (rnd : nat -> bool) (m : Mfm) (index : nat) : outcome N :=
  let! raw := read_raw_buf m 8 index in
  let! dbg := read_decoded_buf rnd m 4 index in
  let! _ := be32_of dbg in
  let! odd_long := be32_of raw in
  let! even_long := be32_of (skipn 4 raw) in
  Ok (N.lor (as_u32 (N.shiftl (N.land odd_long 0x55555555) 1)) (N.land even_long 0x55555555))%N.
(* amiga.rs 796-800 *)
Definition am_decode_checksum (rnd : nat -> bool) (m : Mfm) (index : nat) : outcome N :=
  let! buf := read_decoded_buf rnd m 4 index in be32_of buf.

(* chunks_exact(2) as big-endian words, xored together: amiga.rs 990-992 *)
Fixpoint xor_words (l : list N) (acc : N) : N :=
  match l with
  | a :: b :: t => xor_words t (N.lxor acc (256 * a + b))%N
  | _ => acc
  end.
(* amiga.rs 960-995; `end - bit_index` is a checked subtraction, `% clock_map.len()` panics on 0 *)
Definition am_checksum_u32 (rnd : nat -> bool) (m : Mfm) (bit_index end_ : nat) : outcome N :=
  if end_ <? bit_index then Panic else
  let n := (end_ - bit_index) / 16 in
  if ring_len (m_clock m) =? 0 then Panic else
  let! _ := ring_get (m_clock m) (bit_index mod ring_len (m_clock m)) in
  let! data := read_decoded_buf rnd m n bit_index in
  Ok (xor_words data 0).

(* amiga.rs 778-794 and 819-880: one marker, giving a header and a data element *)
Definition am_elements (rnd : nat -> bool) (m : Mfm) (index : nat) : outcome (list AmInst) :=
  let! dword := am_decode_interleaved_u32 rnd m (index + mfm_offset 2) in
  let info := to_be32 dword in
  let! tk := oindex info 1 in
  let! ss := oindex info 2 in
  let chsn := mkChsn (mkChs (tk / 2) (tk mod 2) ss)%N 2 in
  let byte_index := 2 in
  let! header_sum_calculated :=
    am_checksum_u32 rnd m (index + mfm_offset byte_index) (index + mfm_offset (byte_index + 10)) in
  let byte_index := byte_index + 4 in
  let byte_index := byte_index + 4 + 4 + 4 + 4 in
  let! header_sum := am_decode_checksum rnd m (index + mfm_offset byte_index) in
  let byte_index := byte_index + 4 in
  let! data_sum := am_decode_checksum rnd m (index + mfm_offset byte_index) in
  let! data_sum_calculated :=
    am_checksum_u32 rnd m (index + mfm_offset (byte_index + 4)) (index + mfm_offset (byte_index + 4 + 512)) in
  let ae := negb (header_sum =? header_sum_calculated)%N in
  let de := negb (data_sum =? data_sum_calculated)%N in
  Ok [mkAi (AmHeader chsn ae false) index (index + mfm_offset 10) (Some chsn) false;
      mkAi (AmData chsn ae de) (index + mfm_offset byte_index) (index + mfm_offset (byte_index + 4 + 512)) (Some chsn) false].
(* amiga.rs 802-885 *)
Definition am_scan_for_elements (rnd : nat -> bool) (m : Mfm) (markers : list nat) : outcome (list AmInst) :=
  ofold (fun acc p => let! l := am_elements rnd m p in Ok (acc ++ l)) markers [].

(* amiga.rs 523-611 *)
Fixpoint am_find_loop (q : DiskChsnQuery) (index : nat) (items : list AmInst) (ei : nat)
    (wc bc wh matched : bool) : ScanResult :=
  match items with
  | [] => NotFound wc bc wh
  | i :: t =>
      if ai_start i <? index then am_find_loop q index t (S ei) wc bc wh matched
      else
        match ai_elem i with
        | AmHeader chsn ae dm =>
            if dm then Found ei chsn ae false false true (ai_last i)
            else if (chsn_s chsn =? q_s q)%N then
              let bc := if (chsn_c chsn =? 0xFF)%N then true else bc in
              let wc := if opt_ne (q_c q) (chsn_c chsn) then true else wc in
              let wh := if opt_ne (q_h q) (chsn_h chsn) then true else wh in
              am_find_loop q index t (S ei) wc bc wh (if query_matches q chsn then true else matched)
            else am_find_loop q index t (S ei) wc bc wh matched
        | AmData chsn ae de =>
            if matched then Found ei chsn ae de false false (ai_last i)
            else am_find_loop q index t (S ei) wc bc wh matched
        | AmMarker => am_find_loop q index t (S ei) wc bc wh matched
        end
  end.
Definition am_find_sector_element (q : DiskChsnQuery) (items : list AmInst) (index : nat) : ScanResult :=
  am_find_loop q index items 0 false false false false.

(* overwrite the front of buf with l (zip stops at the shorter) *)
Definition put_front (buf l : list N) : list N := firstn (length buf) l ++ skipn (length l) buf.
(* amiga.rs 615-698; n = buf.len(), the buffer starts out zeroed (bitstream.rs 303).
   `(raw_bytes_read / 2) - 4` is a checked subtraction, raw_buf[..] is checked indexing. *)
Definition am_decode_element (rnd : nat -> bool) (m : Mfm) (i : AmInst) (scope : RwScope) (n : nat)
  : outcome (list N * (nat * nat) * option Integrity) :=
  match ai_elem i with
  | AmData _ _ _ =>
      let! recorded := am_decode_checksum rnd m (ai_start i) in
      let! raw := read_raw_buf m (n * 2) (ai_start i + mfm_offset 4) in
      let raw_bytes_read := n * 2 in
      let! calculated := am_checksum_u32 rnd m (ai_start i + mfm_offset 4) (ai_start i + mfm_offset (4 + 512)) in
      let buf := put_front (repeat 0%N n) (to_be32 recorded) in
      if raw_bytes_read / 2 <? 4 then Panic else
      let! out := ofold (fun acc k =>
                     let! o := oindex raw k in
                     let! e := oindex raw (k + 512) in
                     Ok (acc ++ [N.lor (as_u8 (N.shiftl (N.land o 0x55) 1)) (N.land e 0x55)])%N)
                   (seq 0 (Nat.min (n - 4) (raw_bytes_read / 2 - 4))) [] in
      Ok (firstn 4 buf ++ out ++ skipn (4 + length out) buf, am_range (ai_elem i) scope,
          Some (mkIntegrity (as_u16 recorded) (as_u16 calculated)))
  | _ => Ok (repeat 0%N n, (0, 0), None)
  end.

(* amiga.rs 700-707: nothing is written *)
Definition am_encode_element (m : Mfm) (i : AmInst) (buf : list N) : Mfm * AmInst * nat := (m, i, 0).

(* amiga.rs 452-506 *)
Definition am_analyze_elements (items : list AmInst) (ids : list DiskChsn) : outcome TrackAnalysis :=
  let! nonc := ids_nonconsecutive ids in
  let last_n := last (map chsn_n ids) 0%N in
  let n_set := nodup N.eq_dec (map chsn_n ids) in
  let any f := existsb f (map ai_elem items) in
  Ok (mkAnalysis
        (any (fun e => match e with AmData _ _ de => de | _ => false end))
        (any (fun e => match e with AmData _ ae _ => ae | AmHeader _ ae _ => ae | _ => false end))
        false
        (any (fun e => match e with AmHeader _ _ dm => dm | _ => false end))
        (if 1 <? length n_set then None else Some last_n)
        nonc false false (length ids)).

(* ---- TrackMetadata: mod.rs 361-401, 290-333, 407-426 ---- *)
Definition am_sector_ids (items : list AmInst) : list DiskChsn :=
  flat_map (fun i => match ai_elem i with AmHeader c _ _ => [c] | _ => [] end) items.
Definition am_valid_ids (items : list AmInst) : list DiskChsn :=
  flat_map (fun i => match ai_elem i with AmHeader c false _ => [c] | _ => [] end) items.
Definition am_sector_list (items : list AmInst) : list SectorMapEntry :=
  flat_map (fun i => match ai_elem i with
                     | AmData c ae de => [mkEntry c (mkAttr ae de false false)] | _ => [] end) items.
Definition am_data_ranges (items : list AmInst) : list (nat * nat) :=
  flat_map (fun i => match ai_elem i with AmData _ _ _ => [(ai_start i, ai_end i)] | _ => [] end) items.

(* ---- BitStreamTrack with schema Some(Amiga): bitstream.rs 78-88 ---- *)
Record AmTrack : Set := mkAt { at_ch : DiskCh; at_data : Mfm; at_items : list AmInst; at_ids : list DiskChsn }.
Definition at_with_items (t : AmTrack) (l : list AmInst) : AmTrack := mkAt (at_ch t) (at_data t) l (at_ids t).
(* mod.rs 541-549: the elements of either schema *)
Inductive TElem : Set := El34 (e : Elem) | ElAm (e : AmElem).
(* mod.rs 580-585 *)
Definition is_sector_header (e : TElem) : bool :=
  match e with El34 (ElHeader _ _ _) => true | _ => false end.
(* bitstream.rs 142-150 *)
Definition am_sector_ct (t : AmTrack) : nat :=
  length (filter (fun i => is_sector_header (ElAm (ai_elem i))) (at_items t)).
(* bitstream.rs 152-163 *)
Definition am_has_sector_id (t : AmTrack) (id : N) : bool :=
  existsb (fun i => match ElAm (ai_elem i) with
                    | El34 (ElMarker Idam) => match ai_chsn i with Some c => (chsn_s c =? id)%N | None => false end
                    | _ => false
                    end) (at_items t).
(* bitstream.rs 1224-1273 *)
Fixpoint am_next_sector_loop (index : nat) (items : list AmInst) (ei : nat) (idam : option DiskChsn) : ScanResult :=
  match items with
  | [] => NotFound false false false
  | i :: t =>
      if ai_start i <? index then am_next_sector_loop index t (S ei) idam
      else match ElAm (ai_elem i), idam with
           | El34 (ElMarker Idam), _ => am_next_sector_loop index t (S ei) (ai_chsn i)
           | El34 (ElData _ ae de del), Some chsn => Found ei chsn ae de del false (ai_last i)
           | _, _ => am_next_sector_loop index t (S ei) idam
           end
  end.
(* bitstream.rs 124-136: info().sector_ct *)
Definition am_info_sector_ct (t : AmTrack) : nat := length (at_ids t).

(* bitstream.rs 212-384 *)
Definition am_read_sector (rnd : nat -> bool) (t : AmTrack) (q : DiskChsnQuery) (n : option N)
    (offset : option nat) (scope : RwScope) (debug : bool) : outcome ReadSectorResult :=
  match am_find_sector_element q (at_items t) (off_of offset) with
  | Found ei chsn ae de del no_dam last =>
      if no_dam then
        Ok (mkRead (Some chsn) true no_dam false ae None false None false false false last (0, 0) [])
      else if ae && negb debug then
        Ok (mkRead (Some chsn) true false false true None false None false false false false (0, 0) [])
      else
        let! i := oindex (at_items t) ei in
        let size := am_size (ai_elem i) in
        let range := am_range (ai_elem i) scope in
        let overhead := size - (snd range - fst range) in
        let len := match n with
                   | Some nv => N.to_nat (n_to_bytes nv) + overhead
                   | None => n_size chsn + overhead
                   end in
        let! (buf, _, crc) := am_decode_element rnd (at_data t) i scope len in
        match crc with
        | None => Panic
        | Some crc =>
            Ok (mkRead (Some chsn) false false del ae None de (Some crc) false false false last range buf)
        end
  | NotFound wc bc wh =>
      Ok (mkRead None true false false false None false None wc bc wh false (0, 0) [])
  end.
(* bitstream.rs 386-396 *)
Definition am_scan_sector (t : AmTrack) (q : DiskChsnQuery) (offset : option nat) : ScanSectorResult :=
  match am_find_sector_element q (at_items t) (off_of offset) with
  | Found _ _ ae de del no_dam _ => mkScan false no_dam del ae de false false false
  | NotFound wc bc wh => mkScan true false false false false wc bc wh
  end.
(* bitstream.rs 474-620 *)
Definition am_write_sector (t : AmTrack) (q : DiskChsnQuery) (offset : option nat) (data : list N)
    (scope : RwScope) (write_deleted debug : bool) : outcome (AmTrack * WriteSectorResult) :=
  match am_find_sector_element q (at_items t) (off_of offset) with
  | Found ei chsn ae de del no_dam last =>
      if no_dam then Ok (t, mkWrite false true ae false false false)
      else
        let wc := opt_ne (q_c q) (chsn_c chsn) in
        let wh := opt_ne (q_h q) (chsn_h chsn) in
        if ae && negb debug then Ok (t, mkWrite false false ae wc false wh)
        else if negb (Bool.eqb write_deleted del) then Err ParameterError
        else if negb (n_size chsn =? length data) then Err ParameterError
        else
          let! i := oindex (at_items t) ei in
          let '(m, i', _) := am_encode_element (at_data t) i data in
          Ok (mkAt (at_ch t) m (upd (at_items t) ei i') (at_ids t), mkWrite false false false wc false wh)
  | NotFound wc bc wh => Ok (t, mkWrite true false false wc bc wh)
  end.
(* bitstream.rs 622-639 *)
Definition am_recalculate_crc (rnd : nat -> bool) (t : AmTrack) (q : DiskChsnQuery) (offset : option nat)
  : outcome AmTrack :=
  let! rr := am_read_sector rnd t q None offset DataOnly false in
  let! data := read_data_of rr in
  let! (t', _) := am_write_sector t q offset data CrcOnly (rs_deleted rr) false in
  Ok t'.
(* bitstream.rs 653-729; what follows a sector that is found is not modelled (a Panic): none ever is *)
Definition am_read_all (t : AmTrack) : outcome ReadTrackResult :=
  match am_next_sector_loop 0 (at_items t) 0 None with
  | NotFound _ _ _ => Ok (mkTrackRead true false false false 0 [] 0 0)
  | Found _ _ _ _ _ _ _ => Panic
  end.
(* bitstream.rs 731-755 *)
Definition am_next_id (t : AmTrack) (chs : DiskChs) : option DiskChsn :=
  match at_ids t with
  | [] => None
  | first :: _ =>
      match next_id_loop (chs_s chs) (at_ids t) false with
      | inl r => r
      | inr true => Some first
      | inr false => None
      end
  end.
(* bitstream.rs 870-873 *)
Definition am_analysis (t : AmTrack) : outcome TrackAnalysis := am_analyze_elements (at_items t) (at_ids t).

(* ---- BitStreamTrack::new with both schemas compiled in ---- *)
(* mod.rs 82-87 *)
Inductive Schema : Set := SchSystem34 | SchAmiga.
Inductive AnyTrack : Set := TkSystem34 (t : BitTrack) | TkAmiga (t : AmTrack).
(* bitstream.rs 896-1022, TrackDataEncoding::Mfm: everything before the schemas are tried *)
Definition new_stream (data : list N) (weak : option (list N)) (bitcell_ct : option nat) (detect_weak : bool) : outcome Mfm :=
  if match weak with Some w => negb (length data =? length w) | None => false end then Err ParameterError else
  let! bits :=
    match data with
    | [] => match bitcell_ct with
            | Some n => Ok (map (fun i => i mod 2 =? 0) (seq 0 n))
            | None => Err ParameterError
            end
    | _ => Ok (flat_map byte_bits data)
    end in
  let! m := mfm_new bits bitcell_ct (option_map (flat_map byte_bits) weak) in
  match weak with
  | Some _ => Ok m
  | None => if detect_weak
            then let! w := create_weak_bit_mask m 6 in
                 match mfm_set_weak_mask_checked m w with Ok m' => Ok m' | Err _ => Ok m | Panic => Panic end
            else Ok m
  end.
(* bitstream.rs 1035-1116 for one schema; None when it finds no markers *)
Definition try_schema (rnd : nat -> bool) (ch : DiskCh) (m : Mfm) (s : Schema) : outcome (option AnyTrack) :=
  match s with
  | SchSystem34 =>
      let! markers := scan_markers m in
      match markers with
      | [] => Ok None
      | _ =>
          let! cm := create_clock_map markers (r_bits (m_clock m)) in
          let m := set_clock_bits m cm in
          let! (items, m) := scan_metadata rnd m markers in
          let md := meta_new items in
          let m := match data_ranges md with [] => m | rs => set_data_ranges m rs end in
          Ok (Some (TkSystem34 (mkTrack ch m md true)))
      end
  | SchAmiga =>
      let! markers := am_scan_markers m in
      match markers with
      | [] => Ok None
      | _ =>
          let! cm := am_create_clock_map markers (r_bits (m_clock m)) in
          let m := set_clock_bits m cm in
          let! items := am_scan_for_elements rnd m markers in
          let m := match am_data_ranges items with [] => m | rs => set_data_ranges m rs end in
          Ok (Some (TkAmiga (mkAt ch m items (am_sector_ids items))))
      end
  end.
(* bitstream.rs 1027-1055, 1062-1116: the default schema first, then the other one; a track no schema
   recognises has schema None, which the System 34 track record expresses as bt_schema = false *)
Fixpoint try_schemas (rnd : nat -> bool) (ch : DiskCh) (m : Mfm) (l : list Schema) : outcome AnyTrack :=
  match l with
  | [] => Ok (TkSystem34 (mkTrack ch m meta_default false))
  | s :: t => let! r := try_schema rnd ch m s in
              match r with Some k => Ok k | None => try_schemas rnd ch m t end
  end.
(* params.schema.unwrap_or_default(): the default is System34 *)
Definition schema_order (pref : option Schema) : list Schema :=
  match pref with Some SchAmiga => [SchAmiga; SchSystem34] | _ => [SchSystem34; SchAmiga] end.
Definition any_new (rnd : nat -> bool) (ch : DiskCh) (data : list N) (weak : option (list N))
    (bitcell_ct : option nat) (detect_weak : bool) (pref : option Schema) : outcome AnyTrack :=
  let! m := new_stream data weak bitcell_ct detect_weak in try_schemas rnd ch m (schema_order pref).
