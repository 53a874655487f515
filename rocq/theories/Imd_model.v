(* Imd_model.v - src/file_parsers/imd.rs: the ImageDisk loader.
   A reader is the list of the bytes not yet read.  Not modelled: the regular expression for the header text (it only sets the
   "comment" metadata), the descriptor other than its geometry, logging.  (With trace logging enabled, imd.rs 345 formats
   `&data.data[0..16]`, which panics for an "unavailable" sector; logging is taken to be off.) *)
From Verif Require Import Base Chs_model Types_model MetaSector_model BitStream_model DiskImage_model Raw_model.
Import ListNotations.

(* util.rs 49-84 read_ascii(_, Some(ASCII_EOF), None): the reader after the text and its terminator *)
Fixpoint skip_text (rest : list N) : list N :=
  match rest with
  | [] => []
  | b :: t => if (b =? 0x1A)%N || (b =? 0)%N then t else skip_text t
  end.
(* imd.rs 56-64 ImdTrack *)
Record ImdTrack : Set := mkImd { im_mode : N; im_c : N; im_h : N; im_ct : N; im_size : N }.
(* 70-72 h() *)
Definition imd_h (t : ImdTrack) : N := N.land (im_h t) 0x0F.
(* 73-75 is_valid *)
Definition imd_valid (t : ImdTrack) : bool :=
  (im_mode t <? 6)%N && (N.land (im_h t) 0x3F <? 2)%N && (im_size t <? 7)%N.
(* 76-84 *)
Definition imd_has_head_map (t : ImdTrack) : bool := negb (N.land (im_h t) 0x40 =? 0)%N.
Definition imd_has_cylinder_map (t : ImdTrack) : bool := negb (N.land (im_h t) 0x80 =? 0)%N.
Definition imd_has_size_map (t : ImdTrack) : bool := (im_h t =? 0xFF)%N.
(* 102-113 imd_sector_size_to_usize; 90-100 imd_mode_to_rate is Some for every mode accepted by is_valid *)
Definition imd_sector_size (size : N) : option N :=
  match size with
  | 0 => Some 128 | 1 => Some 256 | 2 => Some 512 | 3 => Some 1024 | 4 => Some 2048 | 5 => Some 4096 | 6 => Some 8192
  | _ => None
  end%N.
(* 115-119 ImdSectorData *)
Record ImdSectorData : Set := mkISD { id_data : list N; id_deleted : bool; id_error : bool }.
(* 381-463 read_data *)
Definition imd_read_data (marker : N) (size : nat) (rest : list N) : outcome (ImdSectorData * list N) :=
  let raw del e := let! (b, r) := read_exact size rest in Ok (mkISD b del e, r) in
  let fill del e := match rest with b :: r => Ok (mkISD (repeat b size) del e, r) | [] => Err IoError end in
  match marker with
  | 0%N => Ok (mkISD [] false false, rest)
  | 1%N => raw false false
  | 2%N => fill false false
  | 3%N => raw true false
  | 4%N => fill true false
  | 5%N => raw false true
  | 6%N => fill false true
  | _ => Err FormatParseError
  end.
(* 324-361: one sector; (s, c, h) are the entries of the three maps, size that of the size map *)
Definition imd_sector (st : MetaSectorTrack * list N) (e : N * N * N * N) : outcome (MetaSectorTrack * list N) :=
  let '(m, rest) := st in
  let '(s, c, h, size) := e in
  match rest with
  | [] => Err IoError
  | marker :: rest =>
      if (8 <? marker)%N then Err FormatParseError
      else
        let! (x, rest) := imd_read_data marker (N.to_nat size) rest in
        let! m := mt_add_sector m (mkAddSector (mkChsn (mkChs c h s) (bytes_to_n size)) (id_data x) None None
                                               (mkAttr false (id_error x) (id_deleted x) false) false) in
        Ok (m, rest)
  end.
(* combine the four maps, which have the same length *)
Fixpoint zip4 (s c h z : list N) : list (N * N * N * N) :=
  match s, c, h, z with
  | s :: ss, c :: cs, h :: hs, z :: zs => (s, c, h, z) :: zip4 ss cs hs zs
  | _, _, _, _ => []
  end.
(* 211-371: the body of the loop for one track: the image and the reader after it *)
Definition imd_track (d : DiskImage) (t : ImdTrack) (rest : list N) : outcome (DiskImage * list N) :=
  if negb (imd_valid t) then Err FormatParseError
  else match imd_sector_size (im_size t) with
  | None => Err FormatParseError
  | Some size =>
      let ct := N.to_nat (im_ct t) in
      if (256 <=? im_ct t * 2)%N then Panic     (* track_header.sector_ct * 2 in u8 *)
      else
        let! (nums, rest) := read_exact ct rest in
        let! (cyls, rest) := if imd_has_cylinder_map t then read_exact ct rest else Ok (repeat (im_c t) ct, rest) in
        let! (heads, rest) := if imd_has_head_map t then read_exact ct rest else Ok (repeat (imd_h t) ct, rest) in
        (* `vec![0, ct * 2]` has two elements, so one word is read *)
        let! (sizes, rest) := if imd_has_size_map t
                              then let! (w, rest) := read_exact 2 rest in
                                   if ct =? 0 then Panic
                                   else Ok (upd (repeat size ct) 0 (nth 0 w 0 + 256 * nth 1 w 0)%N, rest)
                              else Ok (repeat size ct, rest) in
        let (d, r) := add_track_metasector d (mkCh (im_c t) (imd_h t)) in
        let! ti := r in
        let! tr := oindex (di_pool d) ti in
        match tr with
        | TMeta m =>
            let! (m, rest) := ofold imd_sector (zip4 nums cyls heads sizes) (m, rest) in
            Ok (with_pool d (upd (di_pool d) ti (TMeta m)), rest)
        | _ => Panic
        end
  end.
(* 209-371: the loop.  `seen` is heads_seen, `ct` is track_ct.  Every track takes at least five bytes. *)
Definition set_add (x : N) (s : list N) : list N := if existsb (N.eqb x) s then s else s ++ [x].
Fixpoint imd_loop (fuel : nat) (d : DiskImage) (seen : list N) (ct : nat) (rest : list N) : outcome (DiskImage * list N * nat) :=
  match fuel, rest with
  | S fuel, mode :: c :: h :: n :: size :: rest =>
      let t := mkImd mode c h n size in
      let! (d, rest) := imd_track d t rest in
      imd_loop fuel d (set_add (imd_h t) seen) (if (n =? 0)%N then ct else ct + 1) rest
  | _, _ => Ok (d, seen, ct)
  end.
(* 163-389 load_image.  `track_ct / head_ct` and `rate_opt.unwrap()` panic when there is no track. *)
Definition imd_load_image (d : DiskImage) (file : list N) : outcome DiskImage :=
  let! (d, seen, ct) := imd_loop (length file) d [] 0 (skip_text file) in
  match seen with
  | [] => Panic
  | _ =>
      let head_ct := N.of_nat (length seen) in
      Ok (with_geom d (mkCh (as_u16 (N.of_nat ct) / head_ct) (as_u8 head_ct)))
  end.
