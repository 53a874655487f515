(* Format_spec.v - what the standard format, boot sector and disk formatting properties mean. *)
From Coq Require Import String Ascii List.
From Verif Require Import Base Chs_model Types_model Mfm_model System34_model MetaSector_model BitStream_model DiskImage_model Format_model.
Local Open Scope N_scope.

Definition is_pc (f : StandardFormat) : Prop := f <> AmigaFloppy880 /\ f <> AmigaFloppy1760.

(* Case-insensitive equality of ASCII strings: equal up to swapping letters between A-Z and a-z. *)
Inductive same_letter : ascii -> ascii -> Prop :=
| SLrefl a : same_letter a a
| SLup n : 65 <= n <= 90 -> same_letter (ascii_of_N n) (ascii_of_N (n + 32))
| SLdown n : 65 <= n <= 90 -> same_letter (ascii_of_N (n + 32)) (ascii_of_N n).
Inductive same_text : string -> string -> Prop :=
| STnil : same_text EmptyString EmptyString
| STcons a b s t : same_letter a b -> same_text s t -> same_text (String a s) (String b t).

(* A FAT12 volume as described by a BIOS parameter block: reserved sectors, the FATs, the root directory (32 bytes
   per entry), then clusters.  Every cluster needs a 12-bit FAT entry; two entries are reserved. *)
Definition root_sectors (x : Bpb2) : N := (32 * b2_root_entries x + b2_bytes_per_sector x - 1) / b2_bytes_per_sector x.
Definition data_sectors (x : Bpb2) : N :=
  b2_total_sectors x - b2_reserved_sectors x - b2_number_of_fats x * b2_sectors_per_fat x - root_sectors x.
Definition clusters (x : Bpb2) : N := data_sectors x / b2_sectors_per_cluster x.
Definition fat_fits (x : Bpb2) : Prop := 12 * (clusters x + 2) <= 8 * (b2_sectors_per_fat x * b2_bytes_per_sector x).
Definition is_fat12 (x : Bpb2) : Prop := clusters x < 4085.

(* A boot sector on which the BPB of f was written: only bytes 0x0B .. 0x1F may differ from the template. *)
Definition same_outside (a b : nat) (l l' : list N) : Prop :=
  length l' = length l /\ forall i, (i < a \/ b <= i)%nat -> nth_error l' i = nth_error l i.
(* what a boot sector says *)
Definition describes (buf : list N) (f : StandardFormat) : Prop :=
  exists b, boot_new buf = Ok b /\ boot_has_valid_bpb b = true /\ boot_standard_format b = Some f /\
    bpb2_of f = Ok (bs_bpb2 b) /\ bpb3_of f = Ok (bs_bpb3 b).

(* sector (c, h, s) of the layout of f *)
Definition in_layout (f : StandardFormat) (c h s : N) : Prop :=
  c < l_c (sf_layout f) /\ h < l_h (sf_layout f) /\ 1 <= s <= l_s (sf_layout f).
Definition sector_query (c h s : N) : DiskChsnQuery := mkQuery (Some c) (Some h) s (Some 2).
(* The whole disk reads as given: every sector of the layout is readable without error and holds the given bytes,
   each track lists exactly the sectors of the layout with no error, and there are no other tracks. *)
Definition disk_reads (d : DiskImage) (f : StandardFormat) (content : N -> N -> N -> list N) : Prop :=
  (forall c h s, in_layout f c h s -> forall rnd,
     di_read_sector_basic rnd d (mkCh c h) (sector_query c h s) None = Ok (content c h s)) /\
  (forall c h, c < l_c (sf_layout f) -> h < l_h (sf_layout f) -> exists t,
     di_track d (mkCh c h) = Ok (Some t) /\
     tk_sector_list t = Ok (map (fun s => mkEntry (mkChsn (mkChs c h (s + 1)) 2) (mkAttr false false false false)) (Nseq (l_s (sf_layout f))))) /\
  (forall c h, l_c (sf_layout f) <= c \/ l_h (sf_layout f) <= h -> forall rnd q,
     di_read_sector_basic rnd d (mkCh c h) q None = Err SeekError).

(* the short name of a format: PC formats without the prefix *)
Definition short_name (f : StandardFormat) : string :=
  match f with
  | PcFloppy160 => "160k" | PcFloppy180 => "180k" | PcFloppy320 => "320k" | PcFloppy360 => "360k" | PcFloppy720 => "720k"
  | PcFloppy1200 => "1200k" | PcFloppy1440 => "1440k" | PcFloppy2880 => "2880k"
  | AmigaFloppy880 => "amiga_880k" | AmigaFloppy1760 => "amiga_1760k" end.
(* the media descriptor bytes assigned by IBM and Microsoft *)
Definition standard_media (f : StandardFormat) : option N :=
  match f with
  | PcFloppy160 => Some 0xFE | PcFloppy180 => Some 0xFC | PcFloppy320 => Some 0xFF | PcFloppy360 => Some 0xFD
  | PcFloppy720 => Some 0xF9 | PcFloppy1200 => Some 0xF9 | PcFloppy1440 => Some 0xF0 | PcFloppy2880 => Some 0xF0
  | _ => None end.
(* the analysis stored with the image after formatting *)
Definition clean_analysis (f : StandardFormat) (d : DiskImage) : Prop :=
  da_spt (di_analysis d) = Some (l_s (sf_layout f)) /\ da_size (di_analysis d) = Some 2%N /\
  da_data_error (di_analysis d) = false /\ da_address_error (di_analysis d) = false /\ da_deleted (di_analysis d) = false /\ da_no_dam (di_analysis d) = false.
(* the boot sector written by format *)
Definition boot_of (boot : option (list N)) : list N := match boot with Some b => b | None => DEFAULT_BOOT_SECTOR end.
Definition accepts_creator (tmpl : list N) (creator : option (list N)) : Prop :=
  match creator with None => True | Some c => length c = 8%nat /\ bytes_ok c = true /\ slice tmpl 0x147 8 = FLUXFOX_CREATOR end.
(* B is the boot sector template with the parameter block of f and the creator string *)
Definition boot_for (tmpl : list N) (f : StandardFormat) (creator : option (list N)) (B : list N) : Prop :=
  length B = 512%nat /\ describes B f /\
  (forall c, creator = Some c -> slice B 0x147 8 = c) /\
  forall i, (i < 512)%nat -> ~ (0x0B <= i < 0x20)%nat -> (creator = None \/ ~ (0x147 <= i < 0x14F)%nat) -> nth_error B i = nth_error tmpl i.
(* the contents of a freshly formatted disk *)
Definition zeros : list N := repeat 0 512.
Definition fresh_content (B : list N) (c h s : N) : list N := if (c =? 0) && (h =? 0) && (s =? 1) then B else zeros.
