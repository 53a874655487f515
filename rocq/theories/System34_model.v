(* System34_model.v - src/track_schema/system34.rs and the System 34 part of src/track_schema/mod.rs
   (TrackElementInstance, TrackMetadata), for MFM encoded tracks.
   Not modelled: FM streams, the Amiga elements, the Gap/Sync elements (never produced by a scan), the
   SourceMap, logging. *)
From Verif Require Import Base Chs_model BitRing_model RangeCheck_model Mfm_model Crc_model Types_model.

(* system34.rs 63-96 *)
Definition GAP_BYTE : N := 0x4E.
Definition SYNC_BYTE : N := 0.
Definition SYNC_LEN : nat := 12.
Definition IBM_GAP4A : nat := 80.
Definition ISO_GAP1 : nat := 32.
Definition IAM_MARKER : N := 0x5224522452245552.
Definition IDAM_MARKER : N := 0x4489448944895554.
Definition DAM_MARKER : N := 0x4489448944895545.
Definition DDAM_MARKER : N := 0x4489448944895548.
Definition ANY_MARKER : N := 0x4489448944890000.
Definition MARKER_MASK : N := 0xFFFFFFFFFFFF0000.
Definition IDAM_MARKER_BYTES : list N := [0xA1; 0xA1; 0xA1; 0xFE]%N.
Definition DAM_MARKER_BYTES : list N := [0xA1; 0xA1; 0xA1; 0xFB]%N.
Definition DDAM_MARKER_BYTES : list N := [0xA1; 0xA1; 0xA1; 0xF8]%N.
(* mfm.rs 45 *)
Definition MFM_MARKER_LEN : nat := 64.

(* system34.rs 125-139 *)
Inductive Standard : Set := SIbm | SPerpendicular | SIso.
Definition gap2 (s : Standard) : nat :=
  match s with SIbm => 22 | SPerpendicular => 41 | SIso => 22 end.

(* system34.rs 143-148 *)
Inductive S34Marker : Set := Iam | Idam | Dam | Ddam.
(* system34.rs 150-159 *)
Definition marker_u64 (m : S34Marker) : N :=
  match m with Iam => IAM_MARKER | Idam => IDAM_MARKER | Dam => DAM_MARKER | Ddam => DDAM_MARKER end.
(* system34.rs 161-175 *)
Definition marker_of_u16 (v : N) : option S34Marker :=
  if (v =? 0x5554)%N || (v =? 0xF57E)%N then Some Idam
  else if (v =? 0x5545)%N || (v =? 0xF56F)%N then Some Dam
  else if (v =? 0x554A)%N then Some Ddam
  else None.

(* system34.rs 179-198 (Marker's Option<bool> is always None) *)
Inductive Elem : Set :=
| ElMarker (m : S34Marker)
| ElHeader (chsn : DiskChsn) (address_error data_missing : bool)
| ElData (chsn : DiskChsn) (address_error data_error deleted : bool).

(* chs.rs n_size as a usize *)
Definition n_size (i : DiskChsn) : nat := N.to_nat (n_to_bytes (chsn_n i)).

(* system34.rs 230-248 *)
Definition elem_size (e : Elem) : nat :=
  match e with
  | ElMarker _ => 4
  | ElData chsn _ _ _ => 4 + 2 + n_size chsn
  | ElHeader _ _ _ => 4 + 4 + 2
  end.
(* system34.rs 251-265 *)
Definition elem_range (e : Elem) (scope : RwScope) : nat * nat :=
  match e, scope with
  | ElData _ _ _ _, DataOnly => (4, elem_size e - 2)
  | ElData _ _ _ _, CrcOnly | ElHeader _ _ _, CrcOnly => (elem_size e - 2, elem_size e)
  | _, _ => (0, elem_size e)
  end.

(* mod.rs 464-471 *)
Record Inst : Set := mkInst {
  i_elem : Elem; i_start : nat; i_end : nat; i_chsn : option DiskChsn; i_last : bool }.
Definition set_elem (i : Inst) (e : Elem) : Inst := mkInst e (i_start i) (i_end i) (i_chsn i) (i_last i).
Definition set_last (i : Inst) : Inst := mkInst (i_elem i) (i_start i) (i_end i) (i_chsn i) true.
(* mod.rs 454-457 TrackMarkerItem *)
Definition MarkerItem : Set := (S34Marker * nat)%type.

(* mod.rs 580-596, 602-606 *)
Definition is_sector_header (e : Elem) : bool := match e with ElHeader _ _ _ => true | _ => false end.
Definition is_sector_data_marker (e : Elem) : bool := match e with ElMarker Dam => true | _ => false end.
Definition is_sector_data (e : Elem) : bool := match e with ElData _ _ _ _ => true | _ => false end.

(* ------------------------------------------------------------------ formatting *)
(* system34.rs 401-413: fill a sector from the running pattern cursor.  `fuel` bounds the loop;
   running out of it (an infinite loop in the program) is a Panic. *)
Fixpoint fill_loop (fuel size : nat) (pat : list N) (buf : list N) (cur : nat) : outcome (list N * nat) :=
  if length buf <? size then
    match fuel with
    | O => Panic
    | S f =>
        let remain := size - length buf in
        if length pat <? cur then Panic else
        let copy := if cur + remain <=? length pat then slice pat cur remain else skipn cur pat in
        match length pat with
        | O => Panic
        | _ => fill_loop f size pat (buf ++ copy) ((cur + length copy) mod length pat)
        end
    end
  else Ok (buf, cur).

(* system34.rs 367-428: one sector; state = (track_bytes, markers, pat_cursor) *)
Definition fmt_state : Set := (list N * list MarkerItem * nat)%type.
Definition format_sector (std : Standard) (pat : list N) (gap3 : nat) (st : fmt_state) (sector : DiskChsn)
  : outcome fmt_state :=
  let '(bytes, markers, cur) := st in
  let bytes := bytes ++ repeat SYNC_BYTE SYNC_LEN in
  let idam_off := length bytes in
  let markers := markers ++ [(Idam, idam_off)] in
  let bytes := bytes ++ IDAM_MARKER_BYTES in
  let bytes := bytes ++ [as_u8 (chsn_c sector); chsn_h sector; chsn_s sector; chsn_n sector] in
  let crc := crc_ibm_3740 (skipn idam_off bytes) None in
  let bytes := bytes ++ be16 crc in
  let bytes := bytes ++ repeat GAP_BYTE (gap2 std) in
  let bytes := bytes ++ repeat SYNC_BYTE SYNC_LEN in
  let dam_off := length bytes in
  let markers := markers ++ [(Dam, dam_off)] in
  let bytes := bytes ++ DAM_MARKER_BYTES in
  let! (bytes, cur) :=
    match pat with
    | [b] => Ok (bytes ++ repeat b (n_size sector), cur)
    | _ => let! (sb, cur) := fill_loop (n_size sector) (n_size sector) pat [] cur in Ok (bytes ++ sb, cur)
    end in
  let crc := crc_ibm_3740 (skipn dam_off bytes) None in
  let bytes := bytes ++ be16 crc in
  Ok (bytes ++ repeat GAP_BYTE gap3, markers, cur).

(* system34.rs 333-451 *)
Definition format_track_as_bytes (std : Standard) (bitcell_ct : nat) (sectors : list DiskChsn)
    (pat : list N) (gap3 : nat) : outcome (list N * list MarkerItem) :=
  match pat with
  | [] => Err ParameterError
  | _ =>
      let track_byte_ct := (bitcell_ct + MFM_BYTE_LEN - 1) / MFM_BYTE_LEN in
      let init : fmt_state :=
        match std with
        | SIbm | SPerpendicular =>
            let b := repeat GAP_BYTE IBM_GAP4A ++ repeat SYNC_BYTE SYNC_LEN in (b, [(Iam, length b)], 0)
        | SIso => (repeat GAP_BYTE ISO_GAP1, [], 0)
        end in
      let! (bytes, markers, _) := ofold (format_sector std pat gap3) sectors init in
      let bytes := bytes ++ repeat GAP_BYTE (track_byte_ct - length bytes) in
      Ok (firstn track_byte_ct bytes, markers)
  end.

(* u64::to_be_bytes *)
Definition be64 (v : N) : list N :=
  map (fun i => (v / 2 ^ (8 * N.of_nat (7 - i)) mod 256)%N) (seq 0 8).
(* system34.rs 453-469 *)
Definition set_track_markers (m : Mfm) (markers : list MarkerItem) : outcome Mfm :=
  ofold (fun m '(mk, off) => write_raw_buf m (be64 (marker_u64 mk)) (off * MFM_BYTE_LEN)) markers m.

(* ------------------------------------------------------------------ scanning *)
(* system34.rs 565-603 (Mfm arm) *)
Definition find_next_marker (m : Mfm) (off : nat) : outcome (option MarkerItem) :=
  let! r := find_marker m (mkMarker ANY_MARKER MARKER_MASK 64) off None in
  Ok (match r with
      | Some (idx, v) => option_map (fun k => (k, idx)) (marker_of_u16 v)
      | None => None
      end).
(* system34.rs 605-619 *)
Definition s34_find_marker (m : Mfm) (mk : S34Marker) (index : nat) (limit : option nat)
  : outcome (option (nat * N)) := find_marker m (marker64 (marker_u64 mk)) index limit.
(* system34.rs 862-875 *)
Fixpoint scan_loop (fuel : nat) (m : Mfm) (cursor : nat) (acc : list MarkerItem) : outcome (list MarkerItem) :=
  match fuel with
  | O => Panic
  | S f =>
      let! r := find_next_marker m cursor in
      match r with
      | Some (k, off) => scan_loop f m (off + 4 * MFM_BYTE_LEN) (acc ++ [(k, off)])
      | None => Ok acc
      end
  end.
(* system34.rs 841-877 *)
Definition scan_markers (m : Mfm) : outcome (list MarkerItem) :=
  let! r := s34_find_marker m Iam 0 (Some 5000) in
  match r with
  | Some (p, _) => scan_loop (S (mfm_len m)) m (p + 4 * MFM_BYTE_LEN) [(Iam, p)]
  | None => scan_loop (S (mfm_len m)) m 0 []
  end.

(* system34.rs 290-303 SectorId; sector_size_in_bytes is the same expression as n_to_bytes *)
Record SectorId : Set := mkSid { sid_c : N; sid_h : N; sid_s : N; sid_b : N; sid_valid : bool }.
Definition sid_default : SectorId := mkSid 0 0 0 0 false.
Definition sid_size (s : SectorId) : nat := N.to_nat (N.min 8192 (overflowing_shl64 128 (sid_b s))).
Definition sid_chsn (s : SectorId) : DiskChsn := mkChsn (mkChs (sid_c s) (sid_h s) (sid_s s)) (sid_b s).

(* system34.rs 1153-1171 *)
Definition s34_crc16 (rnd : nat -> bool) (m : Mfm) (bit_index end_ : nat) : outcome (N * N * Mfm) :=
  if end_ <? bit_index then Panic else
  let n := (end_ - bit_index) / 16 in
  match mfm_seek_start m bit_index with
  | Ok m =>
      match mfm_read rnd (n + 2) m with
      | Ok (data, m) =>
          let! hi := oindex data n in
          let! lo := oindex data (n + 1) in
          Ok (from_be16 hi lo, crc_ibm_3740 (firstn n data) None, m)
      | _ => Panic
      end
  | _ => Panic
  end.

(* system34.rs 899-926: read and check a sector header *)
Definition read_header (rnd : nat -> bool) (m : Mfm) (start : nat) : outcome SectorId :=
  let! hdr := read_decoded_buf rnd m 10 start in
  match hdr with
  | [a; b; c; d; cyl; head; sec; n; k0; k1] =>
      Ok (mkSid cyl head sec n (from_be16 k0 k1 =? crc_ibm_3740 [a; b; c; d; cyl; head; sec; n] None)%N)
  | _ => Panic
  end.

(* system34.rs 887-890 locals *)
Record ScanState : Set := mkScanState {
  ss_elems : list Inst; ss_last : option S34Marker; ss_sid : SectorId; ss_off : nat; ss_m : Mfm }.

(* system34.rs 892-1077: one marker *)
Definition scan_step (rnd : nat -> bool) (st : ScanState) (item : MarkerItem) : outcome ScanState :=
  let '(mk, off) := item in
  let sid := ss_sid st in
  let! (elems, sid', m) :=
    match ss_last st, mk with
    | prev, Idam =>
        let! nsid := read_header rnd (ss_m st) off in
        let elems :=
          match prev with
          | Some Idam => ss_elems st ++ [mkInst (ElHeader (sid_chsn sid) (negb (sid_valid sid)) true) (ss_off st) off None false]
          | _ => ss_elems st
          end in
        Ok (elems, nsid, ss_m st)
    | Some Idam, Dam | Some Idam, Ddam =>
        let data_len := sid_size sid * MFM_BYTE_LEN in
        let data_end := off + MFM_MARKER_LEN + data_len in
        let! _ := read_decoded_buf rnd (ss_m st) 4 off in
        let! (rec, calc, m) := s34_crc16 rnd (ss_m st) off data_end in
        let deleted := match mk with Ddam => true | _ => false end in
        Ok (ss_elems st ++
            [mkInst (ElHeader (sid_chsn sid) (negb (sid_valid sid)) false) (ss_off st) off None false;
             mkInst (ElData (sid_chsn sid) (negb (sid_valid sid)) (negb (rec =? calc)%N) deleted) off data_end
                    (Some (sid_chsn sid)) false], sid, m)
    | _, _ => Ok (ss_elems st, sid, ss_m st)
    end in
  Ok (mkScanState (elems ++ [mkInst (ElMarker mk) off (off + 4 * MFM_BYTE_LEN) (Some (sid_chsn sid')) false])
                  (Some mk) sid' off m).

Definition map_last {A} (f : A -> A) (l : list A) : list A :=
  match rev l with [] => [] | x :: t => rev (f x :: t) end.

(* system34.rs 883-1110 *)
Definition scan_metadata (rnd : nat -> bool) (m : Mfm) (markers : list MarkerItem) : outcome (list Inst * Mfm) :=
  let! st := ofold (scan_step rnd) markers (mkScanState [] None sid_default 0 m) in
  let sid := ss_sid st in
  let elems :=
    match ss_last st with
    | Some Idam => ss_elems st ++ [mkInst (ElHeader (sid_chsn sid) (sid_valid sid) true) (ss_off st) (ss_off st + 256) None false]
    | _ => ss_elems st
    end in
  Ok (map_last set_last (stable_sort_by (fun i => N.of_nat (i_start i)) elems), ss_m st).

(* ------------------------------------------------------------------ clock map *)
(* (a..b).step_by(2) *)
Definition step2 (a b : nat) : list nat := map (fun k => a + 2 * k) (seq 0 ((b - a + 1) / 2)).
(* system34.rs 1131-1135, 1146-1150 *)
Definition alternate (cm : list bool) (a b : nat) : outcome (list bool) :=
  ofold (fun cm bi => let! cm := bits_set cm bi true in bits_set cm (bi + 1) false) (step2 a b) cm.
(* system34.rs 1116-1151 *)
Definition create_clock_map (markers : list MarkerItem) (cm : list bool) : outcome (list bool) :=
  let! (cm, last) :=
    ofold (fun '(cm, last) '(_, bi) =>
             if 0 <? last then
               let! cm := bits_set cm (last - 1) false in
               let! cm := alternate cm last bi in Ok (cm, bi)
             else Ok (cm, bi)) markers (cm, 0) in
  let! cm := (if 0 <? last then bits_set cm (last - 1) false else Ok cm) in
  if length cm =? 0 then Panic else alternate cm last (length cm - 1).

(* ------------------------------------------------------------------ elements *)
(* track/mod.rs 97-130 *)
Inductive ScanResult : Set :=
| Found (ei : nat) (chsn : DiskChsn) (address_error data_error deleted no_dam last_sector : bool)
| NotFound (wrong_cylinder bad_cylinder wrong_head : bool).

Definition opt_ne (o : option N) (v : N) : bool :=
  match o with Some x => negb (v =? x)%N | None => false end.

(* system34.rs 634-710: ei is the running element index *)
Fixpoint find_elem_loop (q : DiskChsnQuery) (index : nat) (items : list Inst) (ei : nat)
    (wc bc wh matched : bool) : ScanResult :=
  match items with
  | [] => NotFound wc bc wh
  | i :: t =>
      if i_start i <? index then find_elem_loop q index t (S ei) wc bc wh matched
      else
        match i_elem i with
        | ElHeader chsn ae dm =>
            if (chsn_s chsn =? q_s q)%N then
              let bc := if (chsn_c chsn =? 0xFF)%N then true else bc in
              let wc := if opt_ne (q_c q) (chsn_c chsn) then true else wc in
              let wh := if opt_ne (q_h q) (chsn_h chsn) then true else wh in
              if ae || dm then Found ei chsn ae false false dm (i_last i)
              else find_elem_loop q index t (S ei) wc bc wh (query_matches q chsn)
            else find_elem_loop q index t (S ei) wc bc wh matched
        | ElData chsn ae de del =>
            if matched then Found ei chsn ae de del false (i_last i)
            else find_elem_loop q index t (S ei) wc bc wh matched
        | ElMarker _ => find_elem_loop q index t (S ei) wc bc wh matched
        end
  end.
(* system34.rs 621-717 *)
Definition find_sector_element (q : DiskChsnQuery) (items : list Inst) (index : nat) : ScanResult :=
  find_elem_loop q index items 0 false false false false.

(* system34.rs 719-748; n = buf.len() *)
Definition decode_element (rnd : nat -> bool) (m : Mfm) (i : Inst) (scope : RwScope) (n : nat)
  : outcome (list N * (nat * nat) * option Integrity) :=
  let! buf := read_decoded_buf rnd m n (i_start i) in
  match i_elem i with
  | ElMarker _ => Ok (buf, elem_range (i_elem i) scope, None)
  | _ => let! (rec, calc) := crc16_bytes buf in
         Ok (buf, elem_range (i_elem i) scope, Some (mkIntegrity rec calc))
  end.

(* system34.rs 752-791 *)
Definition encode_element (m : Mfm) (i : Inst) (buf : list N) : outcome (Mfm * Inst * nat) :=
  match i_elem i with
  | ElHeader _ _ _ => Ok (m, i, 0)
  | ElData chsn ae de deleted =>
      let marker_bytes := if deleted then IDAM_MARKER_BYTES else DAM_MARKER_BYTES in
      let marker_crc := crc_ibm_3740 marker_bytes None in
      let crc := crc_ibm_3740 buf (Some marker_crc) in
      let! (m, n1) := write_encoded_buf m buf (i_start i + 4 * MFM_BYTE_LEN) in
      let! (m, n2) := write_encoded_buf m (be16 crc) (i_start i + (4 + length buf) * MFM_BYTE_LEN) in
      Ok (m, set_elem i (ElData chsn ae false deleted), n1 + n2)
  | ElMarker _ => let! (m, n) := write_encoded_buf m buf (i_start i) in Ok (m, i, n)
  end.

(* system34.rs 500-561.  `si as u8 + 1` is a checked u8 addition (panics for si mod 256 = 255). *)
Definition ids_nonconsecutive (ids : list DiskChsn) : outcome bool :=
  let! (b, _) := ofold (fun '(b, si) id =>
            if (as_u8 (N.of_nat si) =? 255)%N then Panic
            else Ok (b || negb (chsn_s id =? as_u8 (N.of_nat si) + 1)%N, S si)) ids (false, 0) in
  Ok b.
Definition analyze_elements (items : list Inst) (ids : list DiskChsn) : outcome TrackAnalysis :=
  let! nonc := ids_nonconsecutive ids in
  let last_n := last (map chsn_n ids) 0%N in
  let n_set := nodup N.eq_dec (map chsn_n ids) in
  let any f := existsb f (map i_elem items) in
  Ok (mkAnalysis
        (any (fun e => match e with ElData _ _ de _ => de | _ => false end))
        (any (fun e => match e with ElData _ ae _ _ => ae | ElHeader _ ae _ => ae | _ => false end))
        (any (fun e => match e with ElData _ _ _ d => d | _ => false end))
        (any (fun e => match e with ElHeader _ _ dm => dm | _ => false end))
        (if 1 <? length n_set then None else Some last_n)
        nonc false false (length ids)).

(* ------------------------------------------------------------------ TrackMetadata *)
(* mod.rs 355-401 *)
Definition find_sector_ids (items : list Inst) : list DiskChsn :=
  flat_map (fun i => match i_elem i with ElHeader c _ _ => [c] | _ => [] end) items.
Definition find_valid_sector_ids (items : list Inst) : list DiskChsn :=
  flat_map (fun i => match i_elem i with ElHeader c false _ => [c] | _ => [] end) items.
(* mod.rs 130-146 (element_map omitted) *)
Record Metadata : Set := mkMeta { md_items : list Inst; md_ids : list DiskChsn; md_valid_ids : list DiskChsn }.
Definition meta_default : Metadata := mkMeta [] [] [].
Definition meta_new (items : list Inst) : Metadata :=
  mkMeta items (find_sector_ids items) (find_valid_sector_ids items).
(* mod.rs 176-192 *)
Definition sector_index_from_element_index (md : Metadata) (index : nat) : option nat :=
  match nth_error (md_items md) index with
  | Some i => if is_sector_data (i_elem i)
              then Some (length (filter (fun i => is_sector_data (i_elem i)) (firstn index (md_items md))))
              else None
  | None => None
  end.
(* mod.rs 201-220: sort by start (stable), take the last; match_ct : u32 *)
Definition inst_contains (i : Inst) (index : nat) : bool := (i_start i <=? index) && (index <=? i_end i).
Definition item_at (md : Metadata) (index : nat) : option (Inst * nat) :=
  let hits := filter (fun i => inst_contains i index) (md_items md) in
  match rev (stable_sort_by (fun i => N.of_nat (i_start i)) hits) with
  | [] => None
  | x :: _ => Some (x, length hits)
  end.
(* mod.rs 268-276: u8 counter with checked addition *)
Definition meta_sector_ct (md : Metadata) : outcome N :=
  let n := length (filter (fun i => is_sector_data_marker (i_elem i)) (md_items md)) in
  if n <? 256 then Ok (N.of_nat n) else Panic.
(* mod.rs 289-332 *)
Definition meta_sector_list (md : Metadata) : list SectorMapEntry :=
  flat_map (fun i => match i_elem i with
                     | ElData c ae de del => [mkEntry c (mkAttr ae de del false)]
                     | _ => [] end) (md_items md).
(* mod.rs 407-426, 428-438 *)
Definition data_ranges (md : Metadata) : list (nat * nat) :=
  flat_map (fun i => match i_elem i with
                     | ElData _ _ _ _ => [(i_start i + 4 * MFM_BYTE_LEN, i_end i)] | _ => [] end) (md_items md).
Definition header_ranges (md : Metadata) : list (nat * nat) :=
  flat_map (fun i => match i_elem i with ElHeader _ _ _ => [(i_start i, i_end i)] | _ => [] end) (md_items md).
