(* Kfx_model.v - src/file_parsers/kryoflux.rs: the KryoFlux stream loader, and diskimage.rs 420-480: the loading of a set of stream files.
   Times are ticks: transitions in ticks of the sample clock, index times in ticks of the index clock (the code divides each by the clock's
   frequency, an f64; a KfInfo string can change the sample clock of the transitions behind it - these strings are handed to the decoder with
   the number of transitions before them; the index times always use the default index clock).  Not modelled: logging, the source map, the
   descriptor's density and RPM (the decoder gets the inputs of all earlier tracks, on which the hints given to it depend). *)
From Verif Require Import Base Chs_model BitRing_model Mfm_model Types_model System34_model MetaSector_model BitStream_model DiskImage_model Raw_model F86_model Hxc_model Flux_model Pll_model.
Local Open Scope nat_scope.

(* 62-84 OsbBlock, read_osb_block: a missing byte counts as 0 *)
Inductive OsbBlock : Set := OsbInvalid | OsbStreamInfo | OsbIndex | OsbStreamEnd | OsbKfInfo | OsbEof.
Definition osb_of (b : N) : OsbBlock :=
  if (b =? 1)%N then OsbStreamInfo else if (b =? 2)%N then OsbIndex else if (b =? 3)%N then OsbStreamEnd
  else if (b =? 4)%N then OsbKfInfo else if (b =? 0x0D)%N then OsbEof else OsbInvalid.
Definition read_osb_block (rest : list N) : OsbBlock * list N :=
  match rest with [] => (OsbInvalid, []) | b :: t => (osb_of b, t) end.
(* 86-112 StreamInfoBlock, StreamEndBlock: size, stream_pos, the last field *)
Definition read_two (rest : list N) : outcome (N * N * list N) :=
  let! (_, rest) := read_le16 rest in
  let! (pos, rest) := read_le32 rest in
  let! (x, rest) := read_le32 rest in
  Ok (pos, x, rest).
(* 95-103 IndexBlock: stream_pos, index_counter *)
Definition read_index (rest : list N) : outcome (N * N * list N) :=
  let! (_, rest) := read_le16 rest in
  let! (pos, rest) := read_le32 rest in
  let! (_, rest) := read_le32 rest in
  let! (counter, rest) := read_le32 rest in
  Ok (pos, counter, rest).
(* util.rs 49-84 read_ascii(image, None, None): up to the next 0 or the end; the printable bytes.  The terminator returned is always 0, so
   the loops of 603-607 and 774-807 are executed once. *)
Fixpoint read_ascii (rest : list N) : list N * list N :=
  match rest with
  | [] => ([], [])
  | b :: t => if (b =? 0)%N then ([], t)
              else let (s, r) := read_ascii t in (if (32 <=? b)%N && (b <? 128)%N then b :: s else s, r)
  end.

(* 498-618 read_index_block: end of file?, the rest, the index blocks.  The stream position is only logged. *)
Record KfxIndex : Set := mkKI { ki_offsets : list N; ki_times : list N; ki_last : option N }.
Definition wrapping_sub32 (a b : N) : N := ((a + 0x100000000 - b) mod 0x100000000)%N.
Definition kfx_index_block (rest : list N) (s : KfxIndex) : outcome (bool * list N * KfxIndex) :=
  let! (byte, rest) := read_u8 rest in
  if (byte <=? 7)%N then Ok (false, skipn 1 rest, s)
  else if (byte =? 9)%N then Ok (false, skipn 1 rest, s)
  else if (byte =? 0x0A)%N then Ok (false, skipn 2 rest, s)
  else if (byte =? 0x0B)%N then Ok (false, rest, s)
  else if (byte =? 0x0C)%N then Ok (false, skipn 2 rest, s)
  else if (byte =? 0x0D)%N then
    let (osb, rest) := read_osb_block rest in
    match osb with
    | OsbInvalid => Ok (false, rest, s)
    | OsbStreamInfo => let! (_, _, rest) := read_two rest in Ok (false, rest, s)
    | OsbIndex =>
        let! (pos, counter, rest) := read_index rest in
        let times := match ki_last s with Some l => ki_times s ++ [wrapping_sub32 counter l] | None => ki_times s end in
        Ok (false, rest, mkKI (ki_offsets s ++ [pos]) times (Some counter))
    | OsbStreamEnd => let! (_, _, rest) := read_two rest in Ok (false, rest, s)
    | OsbKfInfo => let! (_, rest) := read_le16 rest in Ok (false, snd (read_ascii rest), s)
    | OsbEof => Ok (true, rest, s)
    end
  else Ok (false, rest, s).
(* 226-229; every call reads at least a byte *)
Fixpoint kfx_scan (fuel : nat) (rest : list N) (s : KfxIndex) : outcome KfxIndex :=
  match fuel with
  | O => Panic
  | S fuel => let! (eof, rest, s) := kfx_index_block rest s in if eof then Ok s else kfx_scan fuel rest s
  end.

(* 620-841 read_block.  The streams are kr_done ++ [kr_cur]; kr_idx is current_offset_idx and idx_ct, which are always equal; kr_count the
   number of transitions, kr_infos the strings. *)
Definition Infos : Set := list (nat * list N).
Record KfxRead : Set := mkKR { kr_pos : N; kr_idx : nat; kr_done : list (list N); kr_cur : list N; kr_ovl : N; kr_count : nat; kr_infos : Infos }.
Definition kfx_push (s : KfxRead) (advance flux : N) : outcome KfxRead :=
  if (0x100000000 <=? kr_ovl s + flux)%N then Panic
  else Ok (mkKR (kr_pos s + advance) (kr_idx s) (kr_done s) (kr_cur s ++ [(kr_ovl s + flux)%N]) 0 (S (kr_count s)) (kr_infos s)).
Definition kfx_at (s : KfxRead) (pos : N) : KfxRead := mkKR pos (kr_idx s) (kr_done s) (kr_cur s) (kr_ovl s) (kr_count s) (kr_infos s).
Definition kfx_block (offsets : list N) (rest : list N) (s : KfxRead) : outcome (bool * list N * KfxRead) :=
  let! (byte, rest) := read_u8 rest in
  (* 630-644 *)
  let s := match nth_error offsets (kr_idx s) with
           | Some o => if (o <=? kr_pos s)%N then mkKR (kr_pos s) (S (kr_idx s)) (kr_done s ++ [kr_cur s]) [] (kr_ovl s) (kr_count s) (kr_infos s) else s
           | None => s
           end in
  if (byte <=? 7)%N then
    let! (byte2, rest) := read_u8 rest in
    let! s := kfx_push s 2 (byte * 256 + byte2) in Ok (false, rest, s)
  else if (byte =? 8)%N then Ok (false, rest, kfx_at s (kr_pos s + 1))
  else if (byte =? 9)%N then Ok (false, skipn 1 rest, kfx_at s (kr_pos s + 2))
  else if (byte =? 0x0A)%N then Ok (false, skipn 2 rest, kfx_at s (kr_pos s + 3))
  else if (byte =? 0x0B)%N then
    Ok (false, rest, mkKR (kr_pos s) (kr_idx s) (kr_done s) (kr_cur s) (N.min 0xFFFFFFFF (kr_ovl s + 0x10000)) (kr_count s) (kr_infos s))
  else if (byte =? 0x0C)%N then
    let! (byte2, rest) := read_u8 rest in
    let! (byte3, rest) := read_u8 rest in
    let! s := kfx_push s 0 (byte2 * 256 + byte3) in Ok (false, rest, s)
  else if (byte =? 0x0D)%N then
    let (osb, rest) := read_osb_block rest in
    match osb with
    | OsbInvalid => Ok (false, rest, s)
    | OsbStreamInfo => let! (_, _, rest) := read_two rest in Ok (false, rest, s)
    | OsbIndex => let! (_, _, rest) := read_index rest in Ok (false, rest, s)
    | OsbStreamEnd =>
        let! (_, status, rest) := read_two rest in
        if (status =? 1)%N || (status =? 2)%N then Err ImageCorruptError else Ok (false, rest, s)
    | OsbKfInfo =>
        let! (_, rest) := read_le16 rest in
        let (str, rest) := read_ascii rest in
        Ok (false, rest, mkKR (kr_pos s) (kr_idx s) (kr_done s) (kr_cur s) (kr_ovl s) (kr_count s)
                              (match str with [] => kr_infos s | _ => kr_infos s ++ [(kr_count s, str)] end))
    | OsbEof => Ok (true, rest, s)
    end
  else let! s := kfx_push s 1 byte in Ok (false, rest, s).
(* 234-240 *)
Fixpoint kfx_read (offsets : list N) (fuel : nat) (rest : list N) (s : KfxRead) : outcome KfxRead :=
  match fuel with
  | O => Panic
  | S fuel => let! (eof, rest, s) := kfx_block offsets rest s in if eof then Ok s else kfx_read offsets fuel rest s
  end.

(* 253-265 the position of the next track *)
Definition kfx_next_ch (d : DiskImage) : outcome DiskCh :=
  let! chs := track_ch_iter d in
  match rev chs with
  | [] => Ok (mkCh 0 0)
  | last :: _ => Ok (fst (seek_next_track last (di_geom d)))
  end.
(* 198-275: the strings and the complete revolutions of a file; `idx_ct - 1` is checked u32 arithmetic *)
Definition kfx_stream (file : list N) : outcome (Infos * list Rev) :=
  let! ix := kfx_scan (S (length file)) file (mkKI [] [] None) in
  let! s := kfx_read (ki_offsets ix) (S (length file)) file (mkKR 0 0 [] [] 0 0 []) in
  if kr_idx s =? 0 then Panic
  else
    let complete_revs := kr_idx s - 1 in
    if (complete_revs <? 1) || (length (ki_offsets ix) <? 2) then Err IncompatibleImage
    else Ok (kr_infos s, combine (firstn complete_revs (skipn 1 (kr_done s ++ [kr_cur s]))) (ki_times ix)).
(* 198-488 load_image: the image (also after an error), and what was given to the decoder *)
Definition KfxDecoder : Set := list (Infos * list Rev) -> Infos -> Decoder.
Definition kfx_load_image (dec : Infos -> Decoder) (d : DiskImage) (file : list N) : DiskImage * outcome (Infos * list Rev) :=
  match kfx_stream file with
  | Ok (infos, revs) =>
      match kfx_next_ch d with
      | Ok ch =>
          let (d, r) := add_track_fluxstream d ch (dec infos ch (synthesize revs)) in
          (d, let! _ := r in Ok (infos, revs))
      | Err e => (d, Err e)
      | Panic => (d, Panic)
      end
  | Err e => (d, Err e)
  | Panic => (d, Panic)
  end.
(* diskimage.rs 439-474 (355-392 for archives): a file that cannot be read fails the load; one that cannot be loaded ends it, without an error *)
Fixpoint kfx_load_files (dec : KfxDecoder) (past : list (Infos * list Rev)) (d : DiskImage) (files : list (option (list N))) : outcome DiskImage :=
  match files with
  | [] => Ok d
  | None :: _ => Err IoError
  | Some file :: files =>
      match kfx_load_image (dec past) d file with
      | (d, Ok x) => kfx_load_files dec (past ++ [x]) d files
      | (d, Err _) => Ok d
      | (_, Panic) => Panic
      end
  end.

(* ---- 843-931 expand_kryoflux_set.  A path is a directory and a file name, both lists of bytes (ASCII; a path without a file name, for
   which the code panics, is not modelled). *)
Definition Path : Set := (list N * list N)%type.
Definition lower (b : N) : N := if (65 <=? b)%N && (b <=? 90)%N then (b + 32)%N else b.
Definition is_digit (b : N) : bool := (48 <=? b)%N && (b <=? 57)%N.
(* 862 the regular expression: any characters, two digits, a period, a digit and ".raw"; the first group is the longest prefix behind which the rest matches *)
Definition raw_here (l : list N) : bool :=
  match l with
  | a :: b :: p :: c :: q :: r :: s :: t :: _ =>
      is_digit a && is_digit b && (p =? 46)%N && is_digit c && (q =? 46)%N && (r =? 114)%N && (s =? 97)%N && (t =? 119)%N
  | _ => false
  end.
Fixpoint kfx_base (l : list N) : option (list N) :=
  match l with
  | [] => None
  | c :: t => match kfx_base t with Some p => Some (c :: p) | None => if raw_here l then Some [] else None end
  end.
(* decimal digits of a u16, at least two: {:02} *)
Definition digits2 (c : N) : list N :=
  (if 10000 <=? c then [48 + c / 10000 mod 10] else [])%N ++ (if 1000 <=? c then [48 + c / 1000 mod 10] else [])%N ++
  (if 100 <=? c then [48 + c / 100 mod 10] else [])%N ++ [48 + c / 10 mod 10; 48 + c mod 10]%N.
(* 889 *)
Definition test_name (base : list N) (c h : N) : list N := map lower base ++ digits2 c ++ [46; 48 + h; 46; 114; 97; 119]%N.
Definition insert_new (x : N) (l : list N) : list N := if existsb (N.eqb x) l then l else l ++ [x].
Record KfxSet : Set := mkKS { ks_files : list Path; ks_cyls : list N; ks_heads : list N }.
(* 884-926; h is a u8 that never exceeds 3, c a u16 *)
Fixpoint kfx_search (fuel : nat) (dir base : list N) (listing : list Path) (c h : N) (s : KfxSet) : outcome KfxSet :=
  match fuel with
  | O => Panic
  | S fuel =>
      let name := test_name base c h in
      let found := existsb (fun f => if list_eq_dec N.eq_dec (map lower (snd f)) name then true else false) listing in
      let h1 := if found && (0 <? h)%N then (h + 1)%N else h in
      let s := if found then mkKS (ks_files s ++ [(dir, name)]) (insert_new c (ks_cyls s)) (insert_new h1 (ks_heads s)) else s in
      let stop := negb found && (h =? 0)%N && (79 <? c)%N in
      let h2 := (h1 + 1)%N in
      if (1 <? h2)%N && (c =? 65535)%N then Panic
      else
        let '(c, h) := if (1 <? h2)%N then ((c + 1)%N, 0%N) else (c, h2) in
        if stop then Ok s else kfx_search fuel dir base listing c h s
  end.
Definition kfx_expand (path : Path) (listing : list Path) : outcome (list Path * DiskCh) :=
  match kfx_base (snd path) with
  | None => Ok ([], mkCh 0 0)
  | Some base =>
      let! s := kfx_search (N.to_nat 131073) (fst path) base listing 0 0 (mkKS [] [] []) in
      Ok (ks_files s, mkCh (as_u16 (N.of_nat (length (ks_cyls s)))) (as_u8 (N.of_nat (length (ks_heads s)))))
  end.
(* diskimage.rs 420-474: `read` gives the bytes of the files that exist, `listing` the directory of the given path *)
Definition kfx_load_set (dec : KfxDecoder) (read : Path -> option (list N)) (listing : list Path) (path : Path) : outcome DiskImage :=
  let! (files, geom) := kfx_expand path listing in
  kfx_load_files dec [] (with_geom di_default geom) (map read files).
