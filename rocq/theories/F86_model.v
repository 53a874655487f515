(* F86_model.v - src/file_parsers/f86.rs: the 86F loader and writer.
   A file is the list of its bytes; the writer starts from an empty output.  Not modelled: the source map, logging, the surface
   "holes" (BitStreamTrack::new ignores them), callbacks.  Given as parameters: `bitlen`, the f64 computation of
   f86_track_bit_length (used only for files without absolute bit counts), and `other`, the construction of FM and GCR tracks
   (the track model has the MFM codec only).  Disk properties outside the image model are the record DiskDesc. *)
From Verif Require Import Base Chs_model BitRing_model Mfm_model Types_model System34_model MetaSector_model BitStream_model
  DiskImage_model Format_model Raw_model.
From Coq Require Import ZArith.
Import ListNotations.

Definition le16 (x : N) : list N := [x mod 256; (x / 256) mod 256]%N.
Definition le32 (x : N) : list N := [x mod 256; (x / 256) mod 256; (x / 65536) mod 256; (x / 16777216) mod 256]%N.
Definition read_le32 (rest : list N) : outcome (N * list N) :=
  match rest with
  | a :: b :: c :: d :: t => Ok (a + 256 * (b + 256 * (c + 256 * d)), t)%N
  | _ => Err IoError
  end.
Definition read_le16 (rest : list N) : outcome (N * list N) :=
  match rest with a :: b :: t => Ok (a + 256 * b, t)%N | _ => Err IoError end.
(* u32 as i32 *)
Definition as_i32 (x : N) : Z := if (x <? 2147483648)%N then Z.of_N x else (Z.of_N x - 4294967296)%Z.
(* i32 as usize *)
Definition i32_usize (x : Z) : N := Z.to_N (x mod 18446744073709551616)%Z.
(* usize::saturating_add_signed *)
Definition sat_add (a : N) (x : Z) : N := Z.to_N (Z.min 18446744073709551615 (Z.of_N a + x)).

(* the fields of DiskDescriptor that 86F stores; density 0 double, 1 high, 2 extended, 3 any other; data rate 0 500K, 1 300K,
   2 250K, 3 1000K, 4 any other; encoding 0 FM, 1 MFM, 3 GCR; rpm 0 300, 1 360, 2 any other.  dd_prolok: DiskImageFlags::PROLOK *)
Record DiskDesc : Set := mkDesc {
  dd_density : N; dd_rate : N; dd_encoding : N; dd_rpm : option N; dd_write_protect : option bool; dd_prolok : bool }.

(* ---------------------------------------------------------------------------- writer ---------------- *)
(* diskimage.rs 1977-1984 has_weak_bits; bitstream.rs 819-821, metasector.rs 610-612, fluxstream.rs 352-357 *)
Definition tk_has_weak (t : DTrack) : outcome bool :=
  match t with
  | TMeta t => Ok (mt_has_weak_bits t)
  | TBit t => mfm_has_weak_bits (bt_data t)
  | TFlux f => match ft_bitstream f with Ok (Some b) => mfm_has_weak_bits (bt_data b) | Ok None => Ok false | Err e => Err e | Panic => Panic end
  end.
Fixpoint any_weak (ts : list DTrack) : outcome bool :=
  match ts with
  | [] => Ok false
  | t :: ts => let! b := tk_has_weak t in if b then Ok true else any_weak ts
  end.
Definition di_has_weak (d : DiskImage) : outcome bool := any_weak (track_iter d).
(* f86.rs 338-349: iter_mut().zip(..) *)
Fixpoint zip_bytes (f : N -> N -> N) (a b : list N) : list N :=
  match a, b with x :: a, y :: b => f x y :: zip_bytes f a b | a, _ => a end.
Definition pad_even (l : list N) : list N := if Nat.odd (length l) then l ++ [0%N] else l.
(* 972-1040: one track entry *)
Definition f86_entry (flags : N) (surface to_holes : bool) (t : BitTrack) : outcome (list N) :=
  let bits := to_bytes (mfm_data (bt_data t)) in
  let weak := to_bytes (r_bits (m_weak (bt_data t))) in
  if surface && negb (length bits =? length weak) then Err UnsupportedFormat
  else
    let weak := if Nat.odd (length bits) then weak ++ [0%N] else weak in
    let bits := pad_even bits in
    let bits := zip_bytes (if to_holes then fun b w => N.ldiff b w else fun b w => N.lor b w) bits weak in
    Ok (le16 flags ++ le32 (as_u32 (N.of_nat (length (mfm_data (bt_data t))))) ++ le32 0 ++ bits ++ (if surface then weak else [])).
(* 959-1058: `n` more track entries, the next one being for cylinder c, head h; `base` is the position of the first entry *)
Fixpoint f86_entries (d : DiskImage) (dd : DiskDesc) (flags : N) (surface double : bool) (heads base : nat) (n : nat)
    (c h copy : nat) (offs : list N) (body : list N) : outcome (list N * list N) :=
  match n with
  | O => Ok (offs, body)
  | S n =>
      let off := as_u32 (N.of_nat (base + length body)) in
      let! ti := oindex (if h =? 0 then di_map0 d else di_map1 d) c in
      let! tr := oindex (di_pool d) ti in
      match tr with
      | TBit t =>
          let! e := f86_entry flags surface (dd_prolok dd && (c =? 39) && (h =? 0)) t in
          let '(c, h, copy) :=
            if S h =? heads
            then if double then if S copy =? 2 then (S c, 0, 0) else (c, 0, S copy) else (S c, 0, copy)
            else (c, S h, copy) in
          f86_entries d dd flags surface double heads base n c h copy (offs ++ [off]) (body ++ e)
      | _ => Err UnsupportedFormat
      end
  end.
Definition F86_TRACK_TABLE_LEN_PER_HEAD : nat := 256.
(* 840-1074 save_image *)
Definition f86_save (d : DiskImage) (dd : DiskDesc) : outcome (list N) :=
  if (1 <? length (di_res d)) || negb (res_mem RBitStream (di_res d)) then Err UnsupportedFormat
  else
    let! surface := di_has_weak d in
    let! density := (match dd_density dd with 0 => Ok 0 | 1 => Ok 2 | 2 => Ok 4 | _ => Err UnsupportedFormat end)%N in
    let! sides := (match ch_h (di_geom d) with 1 => Ok 0 | 2 => Ok 8 | _ => Err UnsupportedFormat end)%N in
    let wp := match dd_write_protect dd with Some true => 16%N | _ => 0%N end in
    let flags := ((if surface then 1 else 0) + density + sides + 0x80 + 0x1000 + wp)%N in
    let c := N.to_nat (ch_c (di_geom d)) in
    if (length (di_map0 d) <? c) || (length (di_map1 d) <? c) then Err UnsupportedFormat
    else
      let double := (ch_c (di_geom d) <? 80)%N in
      let heads := N.to_nat (ch_h (di_geom d)) in
      let entries := if double then c * 2 * heads else c * heads in
      let! rate := (match dd_rate dd with 0 => Ok 0 | 1 => Ok 1 | 2 => Ok 2 | 3 => Ok 3 | _ => Err UnsupportedFormat end)%N in
      let rpm := match dd_rpm dd with Some 1%N => 32%N | _ => 0%N end in
      let track_flags := (rate + 8 * dd_encoding dd + rpm)%N in
      let table := F86_TRACK_TABLE_LEN_PER_HEAD * heads in
      let! (offs, body) :=
        f86_entries d dd track_flags surface double heads (8 + 4 * table) (Nat.min entries table) 0 0 0 [] [] in
      Ok ([0x38; 0x36; 0x42; 0x46; 0x0C; 0x02]%N ++ le16 flags ++
          flat_map le32 (offs ++ repeat 0%N (table - length offs)) ++ body).

(* ---------------------------------------------------------------------------- loader ---------------- *)
(* 242-283 track_length_words for the densities that are loaded; shift 0 none, 1 1%, 2 1.5%, 3 2% (slow: speedup false) *)
Definition track_length_words (shift : N) (speedup : bool) : N :=
  (match shift, speedup with
   | 3, false => 12750 | 2, false => 12687 | 1, false => 12625
   | 1, true => 12376 | 2, true => 12315 | 3, true => 12254
   | _, _ => 12500
   end)%N.
(* 500-534: the rest of the offset table.  `last` is the offset read last, `acc` the (offset, length) pairs before it *)
Fixpoint f86_table (n : nat) (rest : list N) (last : N) (acc : list (N * N)) (file_len : N) : outcome (list (N * N)) :=
  let finish := if (file_len <? last)%N then Panic else Ok (acc ++ [(last, file_len - last)%N]) in
  match n with
  | O => finish
  | S n =>
      let! (off, rest) := read_le32 rest in
      if (off =? 0)%N then finish
      else if (off <? last)%N then Panic                 (* offset - *prev_offset *)
      else f86_table n rest off (acc ++ [(last, off - last)%N]) file_len
  end.
Record F86State : Set := mkFS { fs_img : DiskImage; fs_rpm : option N; fs_h : N; fs_c : N }.
Definition MAX_USIZE : N := 18446744073709551615.
Section Loader.
  Variable rnd : Rnd.
  Variable bitlen : N -> N -> N -> N -> bool -> Z -> N.        (* encoding, rate, rpm, shift, speedup, extra bits *)
  Variable other : N -> DiskImage -> DiskCh -> list N -> option (list N) -> nat -> DiskImage * outcome nat.
  (* 545-803: one track.  `fl`: the header flags *)
  Definition f86_track (fl : N) (file : list N) (s : F86State) (e : N * N) : outcome F86State :=
    let '(off, len) := e in
    let bit k := N.testbit fl k in
    let extra_mode := bit 7%N in
    let shift := (2 * b2N (bit 6%N) + b2N (bit 5%N))%N in
    let speedup := bit 12%N in
    let absolute := (shift =? 0)%N && speedup && extra_mode in
    let rest := skipn (N.to_nat off) file in
    let! (tf, rest) := read_le16 rest in
    let! (extra, rest) := if extra_mode then let! (x, rest) := read_le32 rest in Ok (Some (as_i32 x), rest) else Ok (None, rest) in
    let! (_, rest) := read_le32 rest in
    let! rpm := (match (tf / 32) mod 8 with 0 => Ok 0 | 1 => Ok 1 | _ => Err UnsupportedFormat end)%N in
    let! rpm' := match fs_rpm s with
                 | None => Ok rpm
                 | Some r => if (r =? rpm)%N then Ok r else Err UnsupportedFormat
                 end in
    let! enc := (match (tf / 8) mod 4 with 0 => Ok 0 | 1 => Ok 1 | 3 => Ok 3 | _ => Err UnsupportedFormat end)%N in
    let! rate := (match tf mod 8 with 0 => Ok 0 | 1 => Ok 1 | 2 => Ok 2 | 3 => Ok 3 | _ => Err UnsupportedFormat end)%N in
    let hdr := if extra_mode then 10%N else 6%N in
    if (len <? hdr)%N then Panic
    else
      let raw := (len - hdr)%N in
      if N.odd raw then Err ImageCorruptError
      else
        let raw_data := if bit 0%N then (raw / 2)%N else raw in
        let expected := track_length_words shift speedup in
        let expected := match extra with
                        | Some x => let b := sat_add (expected * 16) x in
                                    if (b mod 16 =? 0)%N then (b / 16)%N else (b / 16 + 1)%N
                        | None => expected
                        end in
        let! (n, ct) :=
          if absolute then
            match extra with
            | Some a =>
                let n := i32_usize (Z.quot a 8 + (if (Z.rem a 8 =? 0)%Z then 0 else 1))%Z in
                if (raw_data <? n)%N then Err ImageCorruptError else Ok (n, i32_usize a)
            | None => Err ImageCorruptError
            end
          else if (raw_data <? expected * 2)%N then Err ImageCorruptError
          else Ok ((if (expected * 2 <? raw_data)%N then expected * 2 else raw_data)%N,
                   bitlen enc rate rpm shift speedup (match extra with Some x => x | None => 0%Z end)) in
        let! (data, rest) := read_exact (N.to_nat n) rest in
        let! weak := if bit 0%N
                     then let! (surf, _) := read_exact (N.to_nat n) rest in
                          let w := zip_bytes N.land surf data in
                          Ok (if existsb (fun x => negb (x =? 0)%N) w then Some w else None)
                     else Ok None in
        let ch := mkCh (fs_c s) (fs_h s) in
        let (d, r) := if (enc =? 1)%N then add_track_bitstream rnd (fs_img s) ch data weak (Some (N.to_nat ct)) false
                      else other enc (fs_img s) ch data weak (N.to_nat ct) in
        let! _ := r in
        let sides := if bit 3%N then 2%N else 1%N in
        if (fs_h s + 1 =? sides)%N
        then if (fs_c s =? 65535)%N then Panic else Ok (mkFS d (Some rpm') 0 (fs_c s + 1))
        else Ok (mkFS d (Some rpm') (fs_h s + 1) (fs_c s)).
  (* 411-830 load_image: the image and the disk properties set *)
  Definition f86_load_image (d : DiskImage) (file : list N) : outcome (DiskImage * DiskDesc) :=
    let! (_, rest) := read_exact 6 file in
    let! (fl, rest) := read_le16 rest in
    let fl := N.land fl 0x19FF in                          (* from_bits_truncate *)
    if N.testbit fl 2 then Err UnsupportedFormat           (* extended density *)
    else if N.testbit fl 8 then Err UnsupportedFormat      (* zoned RPM *)
    else if N.testbit fl 11 then Err UnsupportedFormat     (* big-endian *)
    else
      let! (first, rest) := read_le32 rest in
      if (first <? 8)%N then Panic
      else
        let num := N.to_nat ((first - 8) / 4) in
        let! es := f86_table (num - 1) rest first [] (N.of_nat (length file)) in
        let! s := ofold (f86_track fl file) es (mkFS d None 0 0) in
        let sides := if N.testbit fl 3 then 2%N else 1%N in
        Ok (with_geom (fs_img s) (mkCh (fs_c s) sides),
            mkDesc (if N.testbit fl 1 then 1 else 0) 2 1 (fs_rpm s) (Some (N.testbit fl 4)) false).
End Loader.
(* DiskImage::load for an image detected as 86F *)
Definition f86_load (sha1 : list N -> N) rnd bitlen other (file : list N) : outcome (DiskImage * option BootSector * DiskDesc) :=
  let! (d, dd) := f86_load_image rnd bitlen other di_default file in
  let! (d, boot) := post_load_process sha1 rnd d in Ok (d, boot, dd).
