(* Ipf_model.v - src/file_parsers/ipf (ipf.rs, chunk.rs, info_record.rs, image_record.rs, data_record.rs,
   data_block.rs, stream_element.rs, v1_track.rs, v2_track.rs): loading IPF images into a new DiskImage, and
   the tracks this makes (src/track/bitstream.rs: rescan 1124-1167 with both schemas; the schema field of the
   track stays System34).  Not modelled: the source map (display only), logging, println!, data rate, platform
   list, the descriptor's constants, and the failure of allocations of absurd size (a sample whose size
   field exceeds the file is a short read here).  A position in the file is a nat. *)
From Verif Require Import Base Chs_model BitRing_model RangeCheck_model Mfm_model Types_model System34_model BitStream_model
  DiskImage_model OddEven_model Amiga_model Crc32_model.
From Verif Require Raw_model Pce_model.

(* std Read::read_exact and binrw big-endian u32 *)
Definition take (n : nat) (l : list N) : outcome (list N * list N) := Raw_model.read_exact n l.
Definition word (l : list N) : outcome (N * list N) := Pce_model.read_be32 l.
Fixpoint words (n : nat) (l : list N) : outcome (list N * list N) :=
  match n with
  | O => Ok ([], l)
  | S k => let! (x, l) := word l in let! (xs, l) := words k l in Ok (x :: xs, l)
  end.
Definition wd (i : nat) (l : list N) : N := nth i l 0%N.

(* ---- chunk.rs ---- *)
Definition id_caps : list N := [0x43; 0x41; 0x50; 0x53]%N.
Definition id_info : list N := [0x49; 0x4E; 0x46; 0x4F]%N.
Definition id_imge : list N := [0x49; 0x4D; 0x47; 0x45]%N.
Definition id_data : list N := [0x44; 0x41; 0x54; 0x41]%N.
Definition id_is (a b : list N) : bool := if list_eq_dec N.eq_dec a b then true else false.
Record IpfChunk : Set := mkIc { ic_id : list N; ic_data : list N }.
(* chunk.rs 84-92 *)
Definition ipf_chunk_crc (id : list N) (size : N) (data : list N) : N :=
  let h := ipf_hasher_update ipf_hasher_new id in
  let h := ipf_hasher_update h (Pce_model.be32 size) in
  let h := ipf_hasher_update h [0; 0; 0; 0]%N in
  let h := ipf_hasher_update h data in
  ipf_hasher_finalize h.
(* chunk.rs 36-58 and 181-218: the chunk and the position after it.  `size.saturating_sub(12)` *)
Definition ipf_read_chunk (file : list N) (pos : nat) : outcome (IpfChunk * nat) :=
  let! (id, r) := take 4 (skipn pos file) in
  let! (size, r) := word r in
  let! (crc, r) := word r in
  let n := (size - 12)%N in
  if (N.of_nat (length r) <? n)%N then Err IoError else
  let data := firstn (N.to_nat n) r in
  if (Pce_model.MAXIMUM_CHUNK_SIZE <? size)%N then Err IncompatibleImage
  else if negb (crc =? ipf_chunk_crc id size data)%N then Err ImageCorruptError
  else Ok (mkIc id data, pos + 12 + N.to_nat n).

(* ---- records (chunk.rs 109-116 into_inner: trailing bytes are ignored) ---- *)
Definition corrupt {A} (x : outcome A) : outcome A := match x with Err _ => Err ImageCorruptError | _ => x end.
(* info_record.rs 184-203: the fields the loader uses *)
Record InfoRecord : Set := mkInfo { if_encoder : N; if_max_track : N; if_max_side : N }.
Definition ipf_info (data : list N) : outcome InfoRecord :=
  corrupt (let! (w, r) := words 18 data in let! (_, _) := take 12 r in Ok (mkInfo (wd 1 w) (wd 7 w) (wd 9 w))).
(* image_record.rs 60-80 *)
Record ImageRecord : Set := mkIr { ir_track : N; ir_side : N; ir_start : N; ir_bits : N; ir_blocks : N; ir_key : N }.
Definition ipf_image (data : list N) : outcome ImageRecord :=
  corrupt (let! (w, _) := words 17 data in Ok (mkIr (wd 0 w) (wd 1 w) (wd 6 w) (wd 9 w) (wd 10 w) (wd 13 w))).
(* image_record.rs 88-93 *)
Definition ir_ch (r : ImageRecord) : DiskCh := mkCh (as_u16 (ir_track r)) (as_u8 (ir_side r)).
(* data_record.rs 31-37: length, data_key *)
Definition ipf_data (data : list N) : outcome (N * N) :=
  corrupt (let! (w, _) := words 4 data in Ok (wd 0 w, wd 3 w)).
(* data_block.rs 40-82: descriptors of unknown encoders lack two of the fields *)
Record Block : Set := mkBlk { bk_enc : N; bk_gap_bits : N; bk_gap_offset : N; bk_flags : N; bk_offset : N }.
Definition ipf_block (enc : N) (l : list N) : outcome (Block * list N) :=
  if (enc =? 1)%N || (enc =? 2)%N then
    let! (w, l) := words 8 l in Ok (mkBlk enc (wd 1 w) (wd 2 w) (wd 5 w) (wd 7 w), l)
  else
    let! (w, l) := words 6 l in Ok (mkBlk enc (wd 1 w) 0 0 (wd 5 w), l).
Fixpoint ipf_blocks (enc : N) (n : nat) (l : list N) : outcome (list Block * list N) :=
  match n with
  | O => Ok ([], l)
  | S k => let! (b, l) := ipf_block enc l in let! (bs, l) := ipf_blocks enc k l in Ok (b :: bs, l)
  end.
(* ipf.rs 68-72 *)
Record DataRecordInfo : Set := mkDri { dr_edb : nat; dr_blocks : list Block }.

(* ---- stream_element.rs ---- *)
(* 244-255 *)
Definition sample_size (l : list N) : N := fold_left (fun x b => N.lor (N.shiftl x 8) b) l 0%N.
(* 32-57 and 85-104, 197-231: data type, width of the size field, samples (None for Fuzzy), and what follows *)
Definition data_element (bits : bool) (l : list N) : outcome (N * N * option (list N) * list N) :=
  let! (h, l) := take 1 l in
  let! b := oindex h 0 in
  let ty := N.land b 7 in
  let width := N.shiftr b 5 in
  let! (sz, l) := take (N.to_nat width) l in
  let n := sample_size sz in
  if (ty =? 5)%N then Ok (ty, width, None, l) else
  let n := if bits then ((n + 7) / 8)%N else n in
  if (N.of_nat (length l) <? n)%N then Err IoError
  else Ok (ty, width, Some (firstn (N.to_nat n) l), skipn (N.to_nat n) l).
(* 137-186 and 257-286: gap type, width, Some (sample) (None when there is none), and what follows *)
Inductive GapSample : Set := RepeatCt (n : N) | GSample (bits : N).
Definition gap_element (l : list N) : outcome (N * N * option GapSample * list N) :=
  let! (h, l) := take 1 l in
  let! b := oindex h 0 in
  let ty := N.land b 3 in
  let width := N.shiftr b 5 in
  let! (sz, l) := take (N.to_nat width) l in
  let n := sample_size sz in
  if (ty =? 1)%N then Ok (ty, width, Some (RepeatCt n), l)
  else if (ty =? 2)%N then
    let k := ((n + 7) / 8)%N in
    if (N.of_nat (length l) <? k)%N then Err IoError else Ok (ty, width, Some (GSample n), skipn (N.to_nat k) l)
  else Ok (ty, width, None, l).

(* ---- v1_track.rs 285-349 and v2_track.rs 423-513: the elements of one block, from the first on.  `next` says
   whether the samples of the elements after the first are counted in bits.  An endless loop is a Panic. *)
Fixpoint ipf_elements (fuel : nat) (first next : bool) (m : Mfm) (cursor : nat) (l : list N) : outcome (Mfm * nat) :=
  match fuel with
  | O => Panic
  | S f =>
      let! (ty, width, sample, l) := data_element first l in
      if (ty =? 0)%N && (width =? 0)%N then Ok (m, cursor) else
      match sample with
      | None => Err ImageCorruptError
      | Some data =>
          if (ty =? 0)%N then Ok (m, cursor) else
          let! (m, wrote) :=
            (if (ty =? 1)%N then let! m := write_raw_buf m data cursor in Ok (m, length data / 2)
             else if (ty =? 2)%N || (ty =? 3)%N then let! (m, _) := write_encoded_buf m data cursor in Ok (m, length data)
             else Ok (m, length data)) in
          ipf_elements f next next m (cursor + wrote * MFM_BYTE_LEN) l
      end
  end.
(* v2_track.rs 348-417: the samples are read and thrown away; `bits.len() * repeat` is a checked product *)
Fixpoint ipf_gap_list (fuel : nat) (repeat_ct : N) (l : list N) : outcome (list N) :=
  match fuel with
  | O => Panic
  | S f =>
      let! (ty, width, sample, l) := gap_element l in
      if (ty =? 0)%N && (width =? 0)%N then Ok l else
      match sample with
      | Some (RepeatCt n) => ipf_gap_list f n l
      | Some (GSample n) => if (2 ^ 64 <=? n * repeat_ct)%N then Panic else ipf_gap_list f 1 l
      | None => Ok l
      end
  end.
Definition flag_forward : N := 1.
Definition flag_backward : N := 2.
Definition flag_bits : N := 4.
Definition has_flag (f x : N) : bool := negb (N.land f x =? 0)%N.
(* v1_track.rs 155-215 (the loop over blocks), 259-366 *)
Definition ipf_v1_block (file : list N) (edb : nat) (m : Mfm) (cursor : nat) (b : Block) : outcome (Mfm * nat) :=
  if negb (bk_enc b =? 1)%N then Err ImageCorruptError else
  ipf_elements (S (length file)) false false m cursor (skipn (edb + N.to_nat (bk_offset b)) file).
(* v2_track.rs 148-190, 243-346, 533-546 *)
Definition ipf_v2_block (file : list N) (edb : nat) (m : Mfm) (cursor : nat) (b : Block) : outcome (Mfm * nat) :=
  if negb (bk_enc b =? 2)%N then Err ImageCorruptError else
  let! _ :=
    (if (0 <? bk_gap_bits b)%N then
       let l := skipn (edb + N.to_nat (bk_gap_offset b)) file in
       let! l := (if has_flag (bk_flags b) flag_forward then ipf_gap_list (S (length file)) 1 l else Ok l) in
       (if has_flag (bk_flags b) flag_backward then ipf_gap_list (S (length file)) 1 l else Ok l)
     else Ok []) in
  let! (m, cursor) := ipf_elements (S (length file)) false (has_flag (bk_flags b) flag_bits) m cursor
                        (skipn (edb + N.to_nat (bk_offset b)) file) in
  Ok (m, cursor + N.to_nat (bk_gap_bits b)).
Definition ipf_track_blocks (v2 : bool) (file : list N) (d : DataRecordInfo) (m : Mfm) (cursor : nat) : outcome (Mfm * nat) :=
  ofold (fun '(m, c) b => (if v2 then ipf_v2_block else ipf_v1_block) file (dr_edb d) m c b) (dr_blocks d) (m, cursor).

(* ---- the tracks: bitstream.rs 78-88 with schema Some(System34) and the metadata of either schema ---- *)
Inductive IpfMeta : Set := Im34 (md : Metadata) | ImAm (items : list AmInst) | ImNone.
Record IpfTrack : Set := mkIt { it_ch : DiskCh; it_data : Mfm; it_meta : IpfMeta }.
(* bitstream.rs 1124-1167 with the hint Some(Amiga): Amiga first, then System34; a schema no header of which is
   valid is given up, its clock map stays *)
Definition ipf_rescan (rnd : nat -> bool) (m : Mfm) : outcome (Mfm * IpfMeta) :=
  let! markers := am_scan_markers m in
  let! m := match markers with
            | [] => Ok m
            | _ => let! cm := am_create_clock_map markers (r_bits (m_clock m)) in Ok (set_clock_bits m cm)
            end in
  let! items := am_scan_for_elements rnd m markers in
  match am_valid_ids items with
  | _ :: _ => Ok (match am_data_ranges items with [] => m | rs => set_data_ranges m rs end, ImAm items)
  | [] =>
      let! markers := scan_markers m in
      let! m := match markers with
                | [] => Ok m
                | _ => let! cm := create_clock_map markers (r_bits (m_clock m)) in Ok (set_clock_bits m cm)
                end in
      let! (items, m) := scan_metadata rnd m markers in
      let md := meta_new items in
      match md_valid_ids md with
      | [] => Ok (m, ImNone)
      | _ => Ok (match data_ranges md with [] => m | rs => set_data_ranges m rs end, Im34 md)
      end
  end.
(* system34.rs 621-717 over the elements of an Amiga track: every element is `_ => {}` *)
Fixpoint find_foreign (q : DiskChsnQuery) (index : nat) (items : list AmInst) (ei : nat) : ScanResult :=
  match items with
  | [] => NotFound false false false
  | i :: t =>
      if ai_start i <? index then find_foreign q index t (S ei)
      else match ElAm (ai_elem i) with
           | El34 (ElHeader c ae dm) => Found ei c ae false false dm (ai_last i)
           | El34 (ElData c ae de del) => Found ei c ae de del false (ai_last i)
           | _ => find_foreign q index t (S ei)
           end
  end.
(* bitstream.rs 165-210: the sector list *)
Definition ipf_sector_list (t : IpfTrack) : list SectorMapEntry :=
  match it_meta t with
  | Im34 md => meta_sector_list md
  | ImAm items => am_sector_list items
  | ImNone => []
  end.
(* bitstream.rs 212-384: with an Amiga track's elements, what follows a sector that is found is not modelled (a
   Panic): none ever is *)
Definition ipf_read_sector (rnd : nat -> bool) (t : IpfTrack) (q : DiskChsnQuery) (n : option N) (offset : option nat)
    (scope : RwScope) (debug : bool) : outcome ReadSectorResult :=
  match it_meta t with
  | ImAm items =>
      match find_foreign q (off_of offset) items 0 with
      | NotFound wc bc wh => Ok (mkRead None true false false false None false None wc bc wh false (0, 0) [])
      | Found _ _ _ _ _ _ _ => Panic
      end
  | Im34 md => bt_read_sector rnd (mkTrack (it_ch t) (it_data t) md true) q n offset scope debug
  | ImNone => bt_read_sector rnd (mkTrack (it_ch t) (it_data t) meta_default true) q n offset scope debug
  end.

(* ---- ipf.rs ---- *)
Record IpfImage : Set := mkIi { ii_geom : DiskCh; ii_pool : list IpfTrack; ii_map0 : list nat; ii_map1 : list nat }.
(* diskimage.rs 1115-1249 add_empty_track(ch, Mfm, Some(BitStream), _, bits, Some(true)) on an image whose only
   resolution is BitStream: the stream of the new track *)
Definition ipf_new_track (im : IpfImage) (ch : DiskCh) (bits : nat) : outcome Mfm :=
  if (2 <=? ch_h ch)%N then Err SeekError
  else if negb (length (if (ch_h ch =? 0)%N then ii_map0 im else ii_map1 im) =? N.to_nat (ch_c ch)) then Err ParameterError
  else mfm_new (empty_bits bits (Some true)) None None.
Definition ipf_push (im : IpfImage) (t : IpfTrack) : IpfImage :=
  let k := length (ii_pool im) in
  mkIi (ii_geom im) (ii_pool im ++ [t])
       (if (ch_h (it_ch t) =? 0)%N then ii_map0 im ++ [k] else ii_map0 im)
       (if (ch_h (it_ch t) =? 0)%N then ii_map1 im else ii_map1 im ++ [k]).
(* ipf.rs 286-331, v1_track.rs 48-256, v2_track.rs 48-241 *)
Definition ipf_process_track (rnd : nat -> bool) (file : list N) (enc : N) (im : IpfImage) (r : ImageRecord) (d : DataRecordInfo)
  : outcome IpfImage :=
  if negb ((enc =? 1)%N || (enc =? 2)%N) then Err ImageCorruptError else
  let! m := ipf_new_track im (ir_ch r) (N.to_nat (ir_bits r)) in
  let! (m, _) := ipf_track_blocks (enc =? 2)%N file d m (N.to_nat (ir_start r / 16 * 16)) in
  let! (m, md) := ipf_rescan rnd m in
  Ok (ipf_push im (mkIt (ir_ch r) m md)).
(* image_record.rs 144-160, chs.rs 598-604 *)
Definition ch_leb (a b : DiskCh) : bool := (ch_c a <? ch_c b)%N || ((ch_c a =? ch_c b)%N && (ch_h a <=? ch_h b)%N).
(* Vec::sort_by is stable *)
Fixpoint sort_in {A} (le : A -> A -> bool) (x : A) (l : list A) : list A :=
  match l with [] => [x] | y :: t => if le x y then x :: l else y :: sort_in le x t end.
Definition stable_sort {A} (le : A -> A -> bool) (l : list A) : list A := fold_right (sort_in le) [] l.

Record IpfLoad : Set := mkIl {
  il_enc : N; il_images : list ImageRecord; il_map : list (N * nat); il_datas : list DataRecordInfo; il_info : option InfoRecord }.
(* image_map.get *)
Definition lookup (k : N) (l : list (N * nat)) : option nat := option_map snd (find (fun p => (fst p =? k)%N) l).
(* ipf.rs 162-249: one chunk, with the position after it; gives the position of the next one *)
Definition ipf_step (file : list N) (s : IpfLoad) (c : IpfChunk) (pos : nat) : outcome (IpfLoad * nat) :=
  if id_is (ic_id c) id_info then
    let! i := ipf_info (ic_data c) in
    Ok (mkIl (if_encoder i) (il_images s) (il_map s) (il_datas s) (Some i), pos)
  else if id_is (ic_id c) id_imge then
    let! r := ipf_image (ic_data c) in
    Ok (mkIl (il_enc s) (il_images s ++ [r]) ((ir_key r, length (il_images s)) :: il_map s) (il_datas s) (il_info s), pos)
  else if id_is (ic_id c) id_data then
    let! (len, key) := ipf_data (ic_data c) in
    match lookup key (il_map s) with
    | Some k =>
        match nth_error (il_images s) k with
        | Some r =>
            (* a block takes at least 24 bytes, so a count beyond the length of the file is a short read *)
            let! (bs, _) := ipf_blocks (il_enc s) (Nat.min (N.to_nat (ir_blocks r)) (S (length file))) (skipn pos file) in
            let next := (N.of_nat pos + len)%N in
            if (N.of_nat (length file) <? next)%N then Err ImageCorruptError
            else Ok (mkIl (il_enc s) (il_images s) (il_map s) (il_datas s ++ [mkDri pos bs]) (il_info s), N.to_nat next)
        | None => Err ImageCorruptError
        end
    | None => Err ImageCorruptError
    end
  else Ok (s, pos).
(* the chunk loop ends at the first chunk that cannot be read *)
Fixpoint ipf_loop (fuel : nat) (file : list N) (s : IpfLoad) (pos : nat) : outcome IpfLoad :=
  match fuel with
  | O => Panic
  | S f =>
      match ipf_read_chunk file pos with
      | Ok (c, pos) => let! (s, pos) := ipf_step file s c pos in ipf_loop f file s pos
      | Err _ => Ok s
      | Panic => Panic
      end
  end.
(* ipf.rs 116-284; `max_track + 1` and `max_side + 1` are checked sums, data_pool[..] is checked indexing *)
Definition ipf_load_image (rnd : nat -> bool) (file : list N) : outcome IpfImage :=
  let! (c, pos) := ipf_read_chunk file 0 in
  if negb (id_is (ic_id c) id_caps) then Err UnknownFormat else
  let! s := ipf_loop (S (length file)) file (mkIl 0 [] [] [] None) pos in
  let order := stable_sort (fun a b => match nth_error (il_images s) a, nth_error (il_images s) b with
                                       | Some x, Some y => ch_leb (ir_ch x) (ir_ch y) | _, _ => true end)
                           (seq 0 (length (il_images s))) in
  match il_info s with
  | None => Err ImageCorruptError
  | Some info =>
      let! im := ofold (fun im k =>
                    let! r := oindex (il_images s) k in
                    let! d := oindex (il_datas s) k in
                    ipf_process_track rnd file (if_encoder info) im r d) order (mkIi (mkCh 0 0) [] [] []) in
      if (2 ^ 32 <=? if_max_track info + 1)%N || (2 ^ 32 <=? if_max_side info + 1)%N then Panic
      else Ok (mkIi (mkCh (as_u16 (if_max_track info + 1)) (as_u8 (if_max_side info + 1))) (ii_pool im) (ii_map0 im) (ii_map1 im))
  end.
