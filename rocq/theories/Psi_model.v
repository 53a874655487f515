(* Psi_model.v - src/file_parsers/pce/psi.rs: the PSI (PCE sector image) loader.  The chunk layer is Pce_model.read_chunk.
   Not modelled: the comment text, the descriptor other than its geometry, sector_counts (computed and never used), the data
   rate and encoding of the tracks, and bit_index of the sectors (ignored by MetaSectorTrack::add_sector).  FoxHashSet: the
   list of its elements in order of insertion. *)
From Verif Require Import Base Chs_model Types_model MetaSector_model BitStream_model DiskImage_model Format_model Raw_model Pce_model.
Import ListNotations.

(* psi.rs 151-165 and the table 242-258 *)
Inductive PsiChunkType : Set :=
| PsiFileHeader | PsiText | PsiSectorHeader | PsiSectorData | PsiWeakMask | PsiIbmFm | PsiIbmMfm | PsiMac
| PsiOffset | PsiClock | PsiEnd | PsiUnknown.
Definition psi_type (id : list N) : PsiChunkType :=
  (if id_eqb id [0x50; 0x53; 0x49; 0x20] then PsiFileHeader            (* "PSI " *)
   else if id_eqb id [0x54; 0x45; 0x58; 0x54] then PsiText             (* "TEXT" *)
   else if id_eqb id [0x45; 0x4E; 0x44; 0x20] then PsiEnd              (* "END " *)
   else if id_eqb id [0x53; 0x45; 0x43; 0x54] then PsiSectorHeader     (* "SECT" *)
   else if id_eqb id [0x44; 0x41; 0x54; 0x41] then PsiSectorData       (* "DATA" *)
   else if id_eqb id [0x57; 0x45; 0x41; 0x4B] then PsiWeakMask         (* "WEAK" *)
   else if id_eqb id [0x49; 0x42; 0x4D; 0x46] then PsiIbmFm            (* "IBMF" *)
   else if id_eqb id [0x49; 0x42; 0x4D; 0x4D] then PsiIbmMfm           (* "IBMM" *)
   else if id_eqb id [0x4D; 0x41; 0x43; 0x47] then PsiMac              (* "MACG" *)
   else if id_eqb id [0x4F; 0x46; 0x46; 0x53] then PsiOffset           (* "OFFS" *)
   else if id_eqb id [0x54; 0x49; 0x4D; 0x45] then PsiClock            (* "TIME" *)
   else PsiUnknown)%N.
(* 229-284 read_chunk *)
Definition psi_read_chunk (rest : list N) : outcome (PsiChunkType * list N * list N) :=
  let! (id, data, r) := read_chunk rest in Ok (psi_type id, data, r).
(* 77-111 SectorContext *)
Record SectorContext : Set := mkCtx {
  cx_phys : option DiskChs; cx_size : N; cx_ibm : option DiskChsn;
  cx_data_crc : bool; cx_addr_crc : bool; cx_deleted : bool; cx_no_dam : bool; cx_alternate : bool }.
Definition ctx_default : SectorContext := mkCtx None 0 None false false false false false.
(* 103-110 sid *)
Definition ctx_sid (phys : DiskChs) (cx : SectorContext) : DiskChsn :=
  match cx_ibm cx with Some id => id | None => mkChsn phys (bytes_to_n (cx_size cx)) end.
(* 172-183 decode_psi_sector_format is Some *)
Definition psi_format_ok (a b : N) : bool :=
  match a, b with
  | 0, 0 | 1, 0 | 2, 0 | 2, 1 | 2, 2 | 3, 0 => true
  | _, _ => false
  end%N.
(* 309-321: the local variables of load_image; ps_current is the pool index of current_track *)
Record PsiLoad : Set := mkPS {
  ps_img : DiskImage; ps_ctx : SectorContext; ps_tracks : list DiskCh; ps_heads : list N; ps_current : option nat }.
Definition ch_insert (x : DiskCh) (s : list DiskCh) : list DiskCh :=
  if existsb (fun y => (ch_c x =? ch_c y)%N && (ch_h x =? ch_h y)%N) s then s else s ++ [x].
Definition ch_in (x : DiskCh) (s : list DiskCh) : bool := existsb (fun y => (ch_c x =? ch_c y)%N && (ch_h x =? ch_h y)%N) s.
(* 368-392, 419-444: track.add_sector on current_track *)
Definition psi_add (d : DiskImage) (cur : option nat) (p : AddSectorParams) : outcome DiskImage :=
  match cur with
  | None => Err FormatParseError
  | Some ti =>
      let! tr := oindex (di_pool d) ti in
      match tr with
      | TMeta m => let! m := mt_add_sector m p in Ok (with_pool d (upd (di_pool d) ti (TMeta m)))
      | _ => Panic
      end
  end.
Definition flag (flags mask : N) : bool := negb (N.land flags mask =? 0)%N.
(* 324-399: a SECT chunk, its fields read *)
Definition psi_sect (s : PsiLoad) (cyl head sector size flags fill : N) : outcome PsiLoad :=
  let ch := mkCh cyl head in
  let heads := set_insert head (ps_heads s) in
  let! (d, tracks, cur) :=
    if ch_in ch (ps_tracks s) then Ok (ps_img s, ps_tracks s, ps_current s)
    else let (d, r) := add_track_metasector (ps_img s) ch in
         let! ti := r in Ok (d, ch_insert ch (ps_tracks s), Some ti) in
  let c := ps_ctx s in
  let chs := mkChs cyl head sector in
  let cx := mkCtx (Some chs) size (cx_ibm c) (flag flags 4) (cx_addr_crc c) (cx_deleted c) (cx_no_dam c) (flag flags 2) in
  if flag flags 1 then
    let! d := psi_add d cur (mkAddSector (mkChsn chs (bytes_to_n size)) (repeat fill (N.to_nat size)) None None
                                         (mkAttr false (cx_data_crc cx) false false) (cx_alternate cx)) in
    Ok (mkPS d ctx_default tracks heads cur)
  else Ok (mkPS d cx tracks heads cur).
(* 322-485: one chunk *)
Definition psi_step (s : PsiLoad) (typ : PsiChunkType) (data : list N) : outcome PsiLoad :=
  match typ with
  | PsiSectorHeader =>
      match data with
      | c1 :: c0 :: head :: sector :: z1 :: z0 :: flags :: fill :: _ =>
          psi_sect s (c1 * 256 + c0)%N head sector (z1 * 256 + z0)%N flags fill
      | _ => Err IoError
      end
  | PsiSectorData =>
      let c := ps_ctx s in
      match cx_phys c with
      | None => Err FormatParseError
      | Some phys =>
          let! d := psi_add (ps_img s) (ps_current s)
                      (mkAddSector (ctx_sid phys c) data None None
                                   (mkAttr (cx_addr_crc c) (cx_data_crc c) (cx_deleted c) (cx_no_dam c)) (cx_alternate c)) in
          Ok (mkPS d ctx_default (ps_tracks s) (ps_heads s) (ps_current s))
      end
  | PsiOffset => if length data <? 4 then Panic else Ok s          (* data[0..4]; bit_offset is not used *)
  | PsiIbmMfm =>
      match data with
      | cyl :: head :: sector :: n :: flags :: _ :: _ =>
          let c := ps_ctx s in
          Ok (mkPS (ps_img s)
                (mkCtx (cx_phys c) (cx_size c) (Some (mkChsn (mkChs cyl head sector) n))
                       (flag flags 2) (flag flags 1) (flag flags 4) (flag flags 8) (cx_alternate c))
                (ps_tracks s) (ps_heads s) (ps_current s))
      | _ => Err IoError
      end
  | _ => Ok s
  end.
(* 321-488: the chunk loop.  Every chunk takes at least twelve bytes, so a fuel of the length of the file is never used up. *)
Fixpoint psi_loop (fuel : nat) (s : PsiLoad) (typ : PsiChunkType) (data rest : list N) : outcome PsiLoad :=
  match typ with
  | PsiEnd => Ok s
  | _ =>
      let! s := psi_step s typ data in
      let! (typ, data, rest) := psi_read_chunk rest in
      match fuel with O => Panic | S fuel => psi_loop fuel s typ data rest end
  end.
(* 286-507 load_image.  `track_ct / head_ct as u16` panics when no head was seen. *)
Definition psi_load_image (d : DiskImage) (file : list N) : outcome DiskImage :=
  let! (typ, data, rest) := psi_read_chunk file in
  match typ with
  | PsiFileHeader =>
      match data with
      | _ :: _ :: a :: b :: _ =>
          if negb (psi_format_ok a b) then Err FormatParseError
          else
            let! s := psi_loop (length file) (mkPS d ctx_default [] [] None) typ data rest in
            let head_ct := as_u8 (N.of_nat (length (ps_heads s))) in
            if (head_ct =? 0)%N then Panic
            else Ok (with_geom (ps_img s) (mkCh (as_u16 (N.of_nat (length (ps_tracks s))) / head_ct) head_ct))
      | _ => Err FormatParseError
      end
  | _ => Err UnknownFormat
  end.
