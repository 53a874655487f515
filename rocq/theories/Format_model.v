(* Format_model.v - src/types/standard_format.rs (table of standard formats), src/boot_sector/bpb.rs and
   bootsector.rs (BIOS parameter block), and diskimage.rs 1291-1419 (format a whole image, read, write and
   update the boot sector).  No proofs here.
   A reader/writer over a byte buffer is a byte list and an offset; `dump_bpb`, log and eprintln output dropped.
   The amiga feature is on (it is in the default feature set, Cargo.toml). *)
From Coq Require Import String Ascii.
From Coq Require Import List.
From Verif Require Import Base Chs_model BitRing_model Mfm_model Types_model System34_model MetaSector_model BitStream_model DiskImage_model.
Local Open Scope N_scope.

(* binrw / byteorder integers: little endian and big endian *)
Fixpoint le_val (l : list N) : N := match l with [] => 0 | b :: t => b + 256 * le_val t end.
Fixpoint le_bytes (n : nat) (v : N) : list N :=
  match n with O => [] | S k => v mod 256 :: le_bytes k (v / 256) end.

(* ------------------------------------------------------------------ standard_format.rs ---- *)
(* 151-175 *)
Inductive StandardFormat : Set :=
| PcFloppy160 | PcFloppy180 | PcFloppy320 | PcFloppy360 | PcFloppy720 | PcFloppy1200 | PcFloppy1440 | PcFloppy2880
| AmigaFloppy880 | AmigaFloppy1760.
(* 205-220 layout *)
Definition sf_layout (f : StandardFormat) : SectorLayout :=
  match f with
  | PcFloppy160 => mkLayout 40 1 8 1 512
  | PcFloppy180 => mkLayout 40 1 9 1 512
  | PcFloppy320 => mkLayout 40 2 8 1 512
  | PcFloppy360 => mkLayout 40 2 9 1 512
  | PcFloppy720 => mkLayout 80 2 9 1 512
  | PcFloppy1200 => mkLayout 80 2 15 1 512
  | PcFloppy1440 => mkLayout 80 2 18 1 512
  | PcFloppy2880 => mkLayout 80 2 36 1 512
  | AmigaFloppy880 => mkLayout 80 2 11 0 512
  | AmigaFloppy1760 => mkLayout 80 2 22 0 512
  end.
(* 222-228 *)
Definition normalized_track_ct (n : N) : option N :=
  if (35 <=? n) && (n <? 50) then Some 40 else if (75 <=? n) && (n <? 100) then Some 80 else None.
(* 232-247; sector_layout.rs ch() chs() chsn() *)
Definition sf_sector_size (f : StandardFormat) : N := l_size (sf_layout f).
Definition sf_ch (f : StandardFormat) : DiskCh := mkCh (l_c (sf_layout f)) (l_h (sf_layout f)).
Definition sf_chs (f : StandardFormat) : DiskChs := mkChs (l_c (sf_layout f)) (l_h (sf_layout f)) (l_s (sf_layout f)).
(* 255-272 data_rate() and 281-297 rpm(), as plain numbers *)
Definition sf_rate (f : StandardFormat) : N :=
  match f with
  | PcFloppy1200 | PcFloppy1440 | AmigaFloppy1760 => 500000 | PcFloppy2880 => 1000000 | _ => 250000 end.
Definition sf_rpm (f : StandardFormat) : N := match f with PcFloppy1200 => 360 | _ => 300 end.
(* 300-315 bitcell_ct *)
Definition sf_bitcell_ct (f : StandardFormat) : N :=
  match f with
  | PcFloppy160 | PcFloppy180 | PcFloppy320 | PcFloppy360 | PcFloppy720 | AmigaFloppy880 => 100000
  | PcFloppy1200 => 166666
  | PcFloppy1440 | AmigaFloppy1760 => 200000
  | PcFloppy2880 => 400000
  end.
(* 318-333 gap3 *)
Definition sf_gap3 (f : StandardFormat) : N :=
  match f with PcFloppy1200 => 0x54 | PcFloppy1440 => 0x6C | PcFloppy2880 => 0x53 | _ => 0x50 end.
(* 349-364 disk_size, also From<StandardFormat> for usize 439-444 *)
Definition sf_disk_size (f : StandardFormat) : N :=
  match f with
  | PcFloppy160 => 163840 | PcFloppy180 => 184320 | PcFloppy320 => 327680 | PcFloppy360 => 368640
  | PcFloppy720 => 737280 | PcFloppy1200 => 1228800 | PcFloppy1440 => 1474560 | PcFloppy2880 => 2949120
  | AmigaFloppy880 => 901120 | AmigaFloppy1760 => 1802240
  end.
(* 388-408 TryFrom<usize>; the error is a string: None *)
Definition sf_of_size (n : N) : option StandardFormat :=
  if n =? 163840 then Some PcFloppy160 else if n =? 184320 then Some PcFloppy180
  else if n =? 327680 then Some PcFloppy320 else if n =? 368640 then Some PcFloppy360
  else if n =? 737280 then Some PcFloppy720 else if n =? 1228800 then Some PcFloppy1200
  else if n =? 1474560 then Some PcFloppy1440 else if n =? 2949120 then Some PcFloppy2880
  else if n =? 901120 then Some AmigaFloppy880 else None.
(* 410-436 TryFrom<&DiskChs> *)
Definition sf_of_chs (x : DiskChs) : option StandardFormat :=
  let is c h s := (chs_c x =? c) && (chs_h x =? h) && (chs_s x =? s) in
  if is 40 1 8 then Some PcFloppy160 else if is 40 1 9 then Some PcFloppy180
  else if is 40 2 8 then Some PcFloppy320 else if is 40 2 9 then Some PcFloppy360
  else if is 80 2 9 then Some PcFloppy720 else if is 80 2 15 then Some PcFloppy1200
  else if is 80 2 18 then Some PcFloppy1440 else if is 80 2 36 then Some PcFloppy2880
  else if is 80 2 11 then Some AmigaFloppy880 else None.

(* 75-103 FromStr for StandardFormatParam, on ASCII strings: str::to_lowercase is ASCII lower-casing there *)
Definition lower_ascii (c : ascii) : ascii :=
  let n := N_of_ascii c in if (65 <=? n) && (n <=? 90) then ascii_of_N (n + 32) else c.
Fixpoint to_lowercase (s : string) : string :=
  match s with EmptyString => EmptyString | String c t => String (lower_ascii c) (to_lowercase t) end.
(* str::strip_prefix("pc_").unwrap_or(..) *)
Definition strip_pc (s : string) : string :=
  match s with
  | String a (String b (String c t)) =>
      if (Ascii.eqb a "p" && Ascii.eqb b "c" && Ascii.eqb c "_")%char then t else s
  | _ => s
  end.
Definition sf_from_str (s : string) : option StandardFormat :=
  let k := strip_pc (to_lowercase s) in
  if String.eqb k "160k" then Some PcFloppy160
  else if String.eqb k "180k" then Some PcFloppy180
  else if String.eqb k "320k" then Some PcFloppy320
  else if String.eqb k "360k" then Some PcFloppy360
  else if String.eqb k "720k" then Some PcFloppy720
  else if String.eqb k "1200k" then Some PcFloppy1200
  else if String.eqb k "1440k" then Some PcFloppy1440
  else if String.eqb k "2880k" then Some PcFloppy2880
  else if String.eqb k "amiga_880k" then Some AmigaFloppy880
  else if String.eqb k "amiga_1760k" then Some AmigaFloppy1760
  else None.
(* 105-122 Display for StandardFormatParam *)
Definition sf_to_str (f : StandardFormat) : string :=
  match f with
  | PcFloppy160 => "pc_160k" | PcFloppy180 => "pc_180k" | PcFloppy320 => "pc_320k" | PcFloppy360 => "pc_360k"
  | PcFloppy720 => "pc_720k" | PcFloppy1200 => "pc_1200k" | PcFloppy1440 => "pc_1440k" | PcFloppy2880 => "pc_2880k"
  | AmigaFloppy880 => "amiga_880k" | AmigaFloppy1760 => "amiga_1760k"
  end.
(* 130-149 list *)
Definition sf_list : list (string * StandardFormat) :=
  [("pc_160k"%string, PcFloppy160); ("pc_180k"%string, PcFloppy180); ("pc_320k"%string, PcFloppy320);
   ("pc_360k"%string, PcFloppy360); ("pc_720k"%string, PcFloppy720); ("pc_1200k"%string, PcFloppy1200);
   ("pc_1440k"%string, PcFloppy1440); ("pc_2880k"%string, PcFloppy2880); ("amiga_880k"%string, AmigaFloppy880)].

(* ------------------------------------------------------------------------------ bpb.rs ---- *)
Definition BPB_OFFSET : nat := 0x0B.                                                             (* 43 *)
(* 45-58, little endian *)
Record Bpb2 : Set := mkBpb2 {
  b2_bytes_per_sector : N; b2_sectors_per_cluster : N; b2_reserved_sectors : N; b2_number_of_fats : N;
  b2_root_entries : N; b2_total_sectors : N; b2_media_descriptor : N; b2_sectors_per_fat : N }.
(* derived BinRead / BinWrite *)
Definition bpb2_read (b : list N) : Bpb2 :=
  mkBpb2 (le_val (slice b 0 2)) (le_val (slice b 2 1)) (le_val (slice b 3 2)) (le_val (slice b 5 1))
         (le_val (slice b 6 2)) (le_val (slice b 8 2)) (le_val (slice b 10 1)) (le_val (slice b 11 2)).
Definition bpb2_write (x : Bpb2) : list N :=
  le_bytes 2 (b2_bytes_per_sector x) ++ le_bytes 1 (b2_sectors_per_cluster x) ++ le_bytes 2 (b2_reserved_sectors x) ++
  le_bytes 1 (b2_number_of_fats x) ++ le_bytes 2 (b2_root_entries x) ++ le_bytes 2 (b2_total_sectors x) ++
  le_bytes 1 (b2_media_descriptor x) ++ le_bytes 2 (b2_sectors_per_fat x).
(* 60-87 is_valid *)
Definition bpb2_is_valid (x : Bpb2) : bool :=
  if (b2_bytes_per_sector x <? 128) || (4096 <? b2_bytes_per_sector x) then false
  else if 2 <? b2_sectors_per_cluster x then false
  else if (b2_number_of_fats x =? 0) || (2 <? b2_number_of_fats x) then false
  else if (b2_root_entries x <? 0x70) || (0xF0 <? b2_root_entries x) then false
  else if (b2_total_sectors x <? 320) || (5760 <? b2_total_sectors x) then false
  else if (b2_sectors_per_fat x <? 1) || (9 <? b2_sectors_per_fat x) then false
  else true.
(* 89-130 TryFrom<&BiosParameterBlock2> for StandardFormat *)
Definition sf_of_bpb2 (x : Bpb2) : option StandardFormat :=
  let t := b2_total_sectors x in
  let m := b2_media_descriptor x in
  if t =? 320 then Some PcFloppy160 else if t =? 360 then Some PcFloppy180
  else if t =? 640 then Some PcFloppy320 else if t =? 720 then Some PcFloppy360
  else if t =? 1440 then Some PcFloppy720 else if t =? 1200 then Some PcFloppy1200
  else if t =? 2880 then Some PcFloppy1440 else if t =? 5760 then Some PcFloppy2880
  else if m =? 0xFE then Some PcFloppy160 else if m =? 0xFC then Some PcFloppy180
  else if m =? 0xFD then Some PcFloppy360 else if m =? 0xFF then Some PcFloppy320
  else if m =? 0xF9 then Some PcFloppy1200 else if m =? 0xF0 then Some PcFloppy1440
  else None.
(* 129-222 TryFrom<StandardFormat> for BiosParameterBlock2 *)
Definition bpb2_of (f : StandardFormat) : outcome Bpb2 :=
  match f with
  | PcFloppy160 => Ok (mkBpb2 512 2 1 2 0x70 320 0xFE 1)
  | PcFloppy180 => Ok (mkBpb2 512 2 1 2 0x70 360 0xFE 1)
  | PcFloppy320 => Ok (mkBpb2 512 2 1 2 0x70 640 0xFF 1)
  | PcFloppy360 => Ok (mkBpb2 512 2 1 2 0x70 720 0xFD 2)
  | PcFloppy720 => Ok (mkBpb2 512 2 1 2 0x70 1440 0xFD 3)
  | PcFloppy1200 => Ok (mkBpb2 512 1 1 2 0xE0 2400 0xF9 7)
  | PcFloppy1440 => Ok (mkBpb2 512 1 1 2 0xE0 2880 0xF0 9)
  | PcFloppy2880 => Ok (mkBpb2 512 1 1 2 0xF0 5760 0xF0 9)
  | _ => Err UnsupportedFormat
  end.
(* 224-233 *)
Record Bpb3 : Set := mkBpb3 { b3_sectors_per_track : N; b3_number_of_heads : N; b3_hidden_sectors : N }.
Definition bpb3_read (b : list N) : Bpb3 := mkBpb3 (le_val (slice b 0 2)) (le_val (slice b 2 2)) (le_val (slice b 4 4)).
Definition bpb3_write (x : Bpb3) : list N :=
  le_bytes 2 (b3_sectors_per_track x) ++ le_bytes 2 (b3_number_of_heads x) ++ le_bytes 4 (b3_hidden_sectors x).
(* 233-288 *)
Definition bpb3_of (f : StandardFormat) : outcome Bpb3 :=
  match f with
  | PcFloppy160 => Ok (mkBpb3 8 1 0) | PcFloppy180 => Ok (mkBpb3 9 1 0)
  | PcFloppy320 => Ok (mkBpb3 8 2 0) | PcFloppy360 => Ok (mkBpb3 9 2 0)
  | PcFloppy720 => Ok (mkBpb3 9 2 0) | PcFloppy1200 => Ok (mkBpb3 15 2 0)
  | PcFloppy1440 => Ok (mkBpb3 18 2 0) | PcFloppy2880 => Ok (mkBpb3 36 2 0)
  | _ => Err UnsupportedFormat
  end.

(* ------------------------------------------------------------------------ bootsector.rs ---- *)
(* 77-82 *)
Record BootSector : Set := mkBoot { bs_bpb2 : Bpb2; bs_bpb3 : Bpb3; bs_marker : list N; bs_buf : list N }.
(* 93-116 new: read_exact of 512 bytes fails on a shorter buffer; the signature is the last two bytes *)
Definition boot_new (buf : list N) : outcome BootSector :=
  if (length buf <? 512)%nat then Err IoError
  else Ok (mkBoot (bpb2_read (slice buf BPB_OFFSET 13)) (bpb3_read (slice buf (BPB_OFFSET + 13) 8))
                  (skipn (length buf - 2) buf) (firstn 512 buf)).
(* 46-66 BootSignature::is_valid *)
Definition signature_valid (m : list N) : bool :=
  match m with [a; b] => (a =? 0x55) && (b =? 0xAA) | _ => false end.
Definition CREATOR_OFFSET : nat := 0x147.
Definition FLUXFOX_CREATOR : list N := [0x66; 0x6C; 0x75; 0x78; 0x66; 0x6F; 0x78; 0x20].          (* "fluxfox " *)
Fixpoint list_eqb (a b : list N) : bool :=
  match a, b with [], [] => true | x :: s, y :: t => (x =? y) && list_eqb s t | _, _ => false end.
(* 121-158 set_creator (creator : [u8; 8]) *)
Definition boot_set_creator (b : BootSector) (creator : list N) : outcome BootSector :=
  if list_eqb (slice (bs_buf b) CREATOR_OFFSET 8) FLUXFOX_CREATOR
  then Ok (mkBoot (bs_bpb2 b) (bs_bpb3 b) (bs_marker b) (splice (bs_buf b) CREATOR_OFFSET creator))
  else Err IncompatibleImage.
(* 172-184 update_bpb_from_format; the two fields are assigned before the buffer, and both conversions fail for
   the same formats, before any assignment *)
Definition boot_update (b : BootSector) (f : StandardFormat) : outcome BootSector :=
  let! p2 := bpb2_of f in
  let! p3 := bpb3_of f in
  Ok (mkBoot p2 p3 (bs_marker b) (splice (bs_buf b) BPB_OFFSET (bpb2_write p2 ++ bpb3_write p3))).
(* 198-204 write_bpb_to_buffer *)
Definition boot_write_bpb (b : BootSector) (buf : list N) : list N :=
  splice buf BPB_OFFSET (bpb2_write (bs_bpb2 b) ++ bpb3_write (bs_bpb3 b)).
(* 160-162, 208-210 *)
Definition boot_has_valid_bpb (b : BootSector) : bool := bpb2_is_valid (bs_bpb2 b).
Definition boot_standard_format (b : BootSector) : option StandardFormat := sf_of_bpb2 (bs_bpb2 b).

(* --------------------------------------------------------------------------- diskimage.rs ---- *)
(* diskimage.rs 95: resources/bootsector.bin *)
Definition DEFAULT_BOOT_SECTOR : list N := [
   235; 88; 144; 0; 0; 0; 0; 0; 0; 0; 0; 0; 0; 0; 0; 0; 0; 0; 0; 0; 0; 0; 0; 0; 0; 0; 0; 0; 0; 0; 0; 0;
   0; 0; 0; 0; 0; 0; 0; 0; 0; 0; 0; 0; 0; 0; 0; 0; 0; 0; 0; 0; 0; 0; 0; 0; 0; 0; 0; 0; 0; 0; 0; 0;
   0; 0; 0; 0; 0; 0; 0; 0; 0; 0; 0; 0; 0; 0; 0; 0; 0; 0; 0; 0; 0; 0; 0; 0; 0; 0; 250; 49; 192; 142; 208; 188;
   0; 124; 184; 176; 7; 80; 80; 31; 7; 190; 0; 1; 191; 0; 3; 185; 0; 1; 243; 165; 184; 208; 7; 80; 80; 80; 31; 7; 184; 129; 1; 80;
   203; 251; 190; 215; 1; 232; 64; 0; 190; 49; 2; 232; 58; 0; 184; 1; 2; 185; 1; 0; 186; 128; 0; 49; 219; 142; 195; 187; 0; 124; 6; 83;
   205; 19; 114; 10; 38; 129; 62; 254; 125; 85; 170; 117; 1; 203; 190; 129; 2; 232; 20; 0; 180; 1; 205; 22; 116; 6; 48; 228; 205; 22; 235; 244;
   48; 228; 205; 22; 49; 210; 205; 25; 252; 172; 8; 192; 117; 1; 195; 86; 180; 14; 205; 16; 94; 235; 242; 92; 124; 47; 32; 32; 32; 32; 32; 32;
   32; 32; 32; 32; 40; 95; 95; 41; 10; 13; 32; 32; 32; 32; 32; 96; 92; 45; 45; 45; 45; 45; 45; 40; 111; 111; 41; 10; 13; 32; 32; 32;
   32; 32; 32; 32; 124; 124; 32; 32; 32; 32; 40; 95; 95; 41; 10; 13; 32; 32; 32; 32; 32; 32; 32; 124; 124; 119; 45; 45; 124; 124; 32; 32;
   32; 32; 32; 92; 124; 47; 10; 13; 32; 32; 32; 92; 124; 47; 10; 13; 0; 68; 105; 115; 107; 32; 105; 109; 97; 103; 101; 32; 99; 114; 101; 97;
   116; 101; 100; 32; 98; 121; 32; 102; 108; 117; 120; 102; 111; 120; 32; 32; 10; 13; 78; 111; 116; 32; 97; 32; 115; 121; 115; 116; 101; 109; 32; 100;
   105; 115; 107; 33; 32; 66; 111; 111; 116; 105; 110; 103; 32; 102; 114; 111; 109; 32; 104; 97; 114; 100; 32; 100; 105; 115; 107; 46; 46; 46; 10; 13;
   0; 67; 97; 110; 110; 111; 116; 32; 108; 111; 97; 100; 32; 102; 114; 111; 109; 32; 104; 97; 114; 100; 32; 100; 105; 115; 107; 33; 10; 13; 73; 110;
   115; 101; 114; 116; 32; 97; 32; 115; 121; 115; 116; 101; 109; 32; 100; 105; 115; 107; 32; 97; 110; 100; 32; 112; 114; 101; 115; 115; 32; 97; 110; 121;
   32; 107; 101; 121; 46; 46; 46; 10; 13; 0; 0; 0; 0; 0; 0; 0; 0; 0; 0; 0; 0; 0; 0; 0; 0; 0; 0; 0; 0; 0; 0; 0;
   0; 0; 0; 0; 0; 0; 0; 0; 0; 0; 0; 0; 0; 0; 0; 0; 0; 0; 0; 0; 0; 0; 0; 0; 0; 0; 0; 0; 0; 0; 85; 170]%N.
(* file_system/mod.rs 44-47 *)
Inductive FileSystemType : Set := Fat12 | Fat16.
(* `for x in l { f(&mut s, x)?; }` : the state is kept when the loop is left by an error *)
Fixpoint sfold {S A} (f : S -> A -> S * outcome unit) (l : list A) (s : S) : S * outcome unit :=
  match l with
  | [] => (s, Ok tt)
  | x :: t => match f s x with (s', Ok tt) => sfold f t s' | r => r end
  end.
(* on an error the image keeps the state before the call *)
Definition keeps (d : DiskImage) (r : outcome DiskImage) : DiskImage * outcome unit :=
  match r with Ok d' => (d', Ok tt) | Err e => (d, Err e) | Panic => (d, Panic) end.
Definition heads_cylinders (g : SectorLayout) : list DiskCh :=
  flat_map (fun h => map (fun c => mkCh c h) (Nseq (l_c g))) (Nseq (l_h g)).
(* 1383-1394 write_boot_sector: the flags of the result are ignored *)
Definition write_boot_sector (d : DiskImage) (buf : list N) : outcome DiskImage :=
  let! (d', _) := di_write_sector d (mkCh 0 0) (mkQuery (Some 0) (Some 0) 1 (Some 2)) None buf DataOnly false false in Ok d'.
(* 1343-1348 the format buffer of one track; `s + 1` is u8 arithmetic, s < layout.s() <= 36 *)
Definition format_ids (f : StandardFormat) (ch : DiskCh) : list DiskChsn :=
  map (fun s => mkChsn (mkChs (ch_c ch) (ch_h ch) (s + 1)) (bytes_to_n (l_size (sf_layout f)))) (Nseq (l_s (sf_layout f))).
(* 1291-1358 format *)
Definition di_format (rnd : Rnd) (d : DiskImage) (f : StandardFormat) (res : Resolution) (fs : FileSystemType)
    (boot : option (list N)) (creator : option (list N)) : DiskImage * outcome unit :=
  match fs with
  | Fat16 => (d, Err UnsupportedFilesystem)
  | Fat12 =>
      let d := reset_image d in
      let boot_sector :=
        let! b := boot_new (match boot with Some b => b | None => DEFAULT_BOOT_SECTOR end) in
        let! b := boot_update b f in
        match creator with Some c => boot_set_creator b c | None => Ok b end in
      match boot_sector with
      | Err e => (d, Err e)
      | Panic => (d, Panic)
      | Ok b =>
          match sfold (fun d ch => let (d', r) := add_empty_track d ch (Some res) (N.to_nat (sf_bitcell_ct f)) (Some false) in
                                   (d', omap (fun _ => tt) r))
                      (heads_cylinders (sf_layout f)) d with
          | (d, Ok tt) =>
              match sfold (fun d ch => keeps d (di_format_track rnd d ch (format_ids f ch) [0] (N.to_nat (sf_gap3 f))))
                          (heads_cylinders (sf_layout f)) d with
              | (d, Ok tt) => keeps d (write_boot_sector d (bs_buf b))
              | r => r
              end
          | r => r
          end
      end
  end.
(* 1370-1381 read_boot_sector: track_map always has two entries *)
Definition read_boot_sector (rnd : Rnd) (d : DiskImage) : outcome (list N) :=
  match di_map0 d with
  | [] => Err IncompatibleImage
  | ti :: _ =>
      let! t := oindex (di_pool d) ti in
      let! r := tk_read_sector rnd t (mkQuery (Some 0) (Some 0) 1 (Some 2)) None None DataOnly true in
      read_data_of r
  end.
(* 1404-1419 update_standard_boot_sector (and 1396-1401 parse_boot_sector); the `boot_sector` field is returned *)
Definition update_standard_boot_sector (rnd : Rnd) (d : DiskImage) (f : StandardFormat)
  : DiskImage * option BootSector * outcome unit :=
  match read_boot_sector rnd d with
  | Err _ => (d, None, Ok tt)
  | Panic => (d, None, Panic)
  | Ok buf =>
      match boot_new buf with
      | Ok b =>
          match boot_update b f with
          | Ok b' => let (d', r) := keeps d (write_boot_sector d (boot_write_bpb b' buf)) in (d', Some b', r)
          | Err e => (d, Some b, Err e)
          | Panic => (d, Some b, Panic)
          end
      | Err _ => (d, None, Ok tt)
      | Panic => (d, None, Panic)
      end
  end.
