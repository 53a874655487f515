(* Ipf_spec.v - the Interchangeable Preservation Format, after the documentation ipf.rs cites (J. Louis-Guerin,
   "IPF documentation" 1.6); uses no model code but the record of cylinder and head. *)
From Verif Require Import Base Chs_model Mfm_spec Crc_spec Crc32_spec.

(* big-endian numbers of w bytes *)
Definition be (w : nat) (n : N) : list N := map (fun k => n / 256 ^ N.of_nat (w - 1 - k) mod 256)%N (seq 0 w).
Definition be_words (l : list N) : list N := flat_map (be 4) l.

(* c is the CRC-32 of l: the remainder, by the polynomial 104C11DB7, of the complemented message, bits reflected *)
Definition crc32_is (l : list N) (c : N) : Prop :=
  (c < 2 ^ 32)%N /\
  is_rem 32 0x104C11DB7 (N.lxor (0xFFFFFFFF * 2 ^ N.of_nat (8 * length l)) (bits_val (bits_lsb l) * 2 ^ 32))
    (mirror32 (N.lxor c 0xFFFFFFFF)).

(* A chunk: four letters, its length (the 12 bytes of this header included), the CRC, and the data.  The CRC is that of
   the whole chunk with the CRC taken as zero.  fluxfox limits a chunk to 1 MiB. *)
Definition chunk (id : list N) (data : list N) (c : N) : list N := id ++ be 4 (12 + N.of_nat (length data)) ++ be 4 c ++ data.
Definition is_chunk (id : list N) (data bytes : list N) : Prop :=
  bytes_ok data = true /\ (12 + N.of_nat (length data) <= 0x100000)%N /\
  exists c, crc32_is (chunk id data 0) c /\ bytes = chunk id data c.
Definition CAPS : list N := [67; 65; 80; 83]%N.
Definition INFO : list N := [73; 78; 70; 79]%N.
Definition IMGE : list N := [73; 77; 71; 69]%N.
Definition DATA : list N := [68; 65; 84; 65]%N.

(* The stream elements of a block: a type and the width of the size field in one byte, the size in bytes, the bytes;
   a zero byte ends the block. *)
Inductive kind : Set := Sync | Data | Gap.
Record element : Set := mkEl { el_kind : kind; el_width : nat; el_bytes : list N }.
Definition kind_code (k : kind) : N := match k with Sync => 1 | Data => 2 | Gap => 3 end.
Definition element_bytes (e : element) : list N :=
  (kind_code (el_kind e) + 32 * N.of_nat (el_width e))%N :: be (el_width e) (N.of_nat (length (el_bytes e))) ++ el_bytes e.
Definition stream (l : list element) : list N := flat_map element_bytes l ++ [0%N].
Definition element_ok (e : element) : Prop :=
  el_width e < 8 /\ (el_kind e = Sync -> length (el_bytes e) mod 2 = 0) /\ (N.of_nat (length (el_bytes e)) < 256 ^ N.of_nat (el_width e))%N /\ bytes_ok (el_bytes e) = true.

(* A block: the eight words of its descriptor (1: gap bits, 5: flags, 7: where its stream is in the extra data block;
   the others do not matter), and what its stream says. *)
Record iblock : Set := mkIb { ib_words : list N; ib_elements : list element }.
Definition ib_gap_bits (b : iblock) : N := nth 1 (ib_words b) 0%N.
Definition ib_flags (b : iblock) : N := nth 5 (ib_words b) 0%N.
Definition ib_offset (b : iblock) : N := nth 7 (ib_words b) 0%N.
(* A track: the 17 words of its image record (0: cylinder, 1: head, 6: first bit, 9: number of bits, 10: number of
   blocks, 13: key), the four of its data record (0: length of the extra data block, 3: key), the extra data block. *)
Record itrack : Set := mkItr { tk_words : list N; tk_dwords : list N; tk_edb : list N; tk_blocks : list iblock }.
Definition tk_cyl (t : itrack) : N := nth 0 (tk_words t) 0%N.
Definition tk_head (t : itrack) : N := nth 1 (tk_words t) 0%N.
Definition tk_start (t : itrack) : N := nth 6 (tk_words t) 0%N.
Definition tk_bits (t : itrack) : N := nth 9 (tk_words t) 0%N.
Definition tk_key (t : itrack) : N := nth 13 (tk_words t) 0%N.
Definition words_ok (n : nat) (l : list N) : Prop := length l = n /\ Forall (fun x => (x < 2 ^ 32)%N) l.

(* The gap streams of encoder 2: repeat counts and samples.  A header byte with the kind and the width of the size field, the
   size (of a sample: in bits), the sample; a zero byte ends the stream.  A repeat count is for the sample after it. *)
Inductive gapel : Set := GapRepeat (width : nat) (count : N) | GapBits (width : nat) (bits : N) (bytes : list N).
Definition gapel_bytes (g : gapel) : list N :=
  match g with
  | GapRepeat w n => (1 + 32 * N.of_nat w)%N :: be w n
  | GapBits w n l => (2 + 32 * N.of_nat w)%N :: be w n ++ l
  end.
Definition gap_stream (l : list gapel) : list N := flat_map gapel_bytes l ++ [0%N].
Definition gapel_ok (g : gapel) : Prop :=
  match g with
  | GapRepeat w n => w < 8 /\ (n < 256 ^ N.of_nat w)%N
  | GapBits w n l => w < 8 /\ (n < 256 ^ N.of_nat w)%N /\ N.of_nat (length l) = ((n + 7) / 8)%N
  end.
(* no gap of 2^32 bits or more *)
Fixpoint gaps_fit (times : N) (l : list gapel) : Prop :=
  match l with
  | [] => True
  | GapRepeat _ n :: t => gaps_fit n t
  | GapBits _ n _ :: t => (n * times < 2 ^ 32)%N /\ gaps_fit 1 t
  end.
(* bit 0 of the flags: there is a forward stream; bit 1: there is a backward stream, after it; bit 2: samples of data are
   counted in bits *)
Definition ib_gap_offset (b : iblock) : N := nth 2 (ib_words b) 0%N.
Definition gaps_ok (edb : list N) (b : iblock) : Prop :=
  (0 < ib_gap_bits b)%N -> exists fw bw rest, Forall gapel_ok fw /\ Forall gapel_ok bw /\ gaps_fit 1 fw /\ gaps_fit 1 bw /\
    skipn (N.to_nat (ib_gap_offset b)) edb = (if N.testbit (ib_flags b) 0 then gap_stream fw else []) ++
                                             (if N.testbit (ib_flags b) 1 then gap_stream bw else []) ++ rest.
(* encoder 1 ("CAPS") or 2 ("SPS"); samples counted in bits, which only the latter knows, are not used *)
Definition block_ok (enc : N) (edb : list N) (b : iblock) : Prop :=
  words_ok 8 (ib_words b) /\ Forall element_ok (ib_elements b) /\ (enc = 2%N -> N.testbit (ib_flags b) 2 = false /\ gaps_ok edb b) /\
  exists rest, skipn (N.to_nat (ib_offset b)) edb = stream (ib_elements b) ++ rest.
Definition track_ok (enc : N) (t : itrack) : Prop :=
  words_ok 17 (tk_words t) /\ words_ok 4 (tk_dwords t) /\
  nth 0 (tk_dwords t) 0%N = N.of_nat (length (tk_edb t)) /\ nth 3 (tk_dwords t) 0%N = tk_key t /\
  nth 10 (tk_words t) 0%N = N.of_nat (length (tk_blocks t)) /\ (0 < tk_bits t)%N /\ (tk_start t mod 16 = 0)%N /\
  (exists tail, tk_edb t = flat_map (fun b => be_words (ib_words b)) (tk_blocks t) ++ tail) /\
  Forall (block_ok enc (tk_edb t)) (tk_blocks t).

(* A file: CAPS, INFO, an IMGE for each track, and a DATA with the extra data block for each, in any order.
   info: the 18 words of the INFO record (1: encoder, 7: last cylinder, 9: last head); ts: the tracks in the order of
   their IMGE chunks; td: in the order of their DATA chunks. *)
Definition ipf_file (info : list N) (ts td : list itrack) (file : list N) : Prop :=
  exists c cd i isx ds,
    is_chunk CAPS cd c /\ words_ok 18 info /\ is_chunk INFO (be_words info ++ repeat 0%N 12) i /\
    Forall2 (fun t x => is_chunk IMGE (be_words (tk_words t)) x) ts isx /\
    Forall2 (fun t x => exists y, is_chunk DATA (be_words (tk_dwords t)) y /\ x = y ++ tk_edb t) td ds /\
    file = c ++ i ++ concat isx ++ concat ds.

(* The cells of a track: alternating cells, over which the elements are laid in turn, going round: sync as it is, data
   and gaps in MFM (a byte's first clock is set as if the bit before it was 0). *)
Definition lay_element (st : list bool * nat) (e : element) : list bool * nat :=
  let '(l, p) := st in
  match el_kind e with
  | Sync => (circ_write l p (bits_of (el_bytes e)), p + 8 * length (el_bytes e))
  | _ => (circ_write l p (mfm false (bits_of (el_bytes e))), p + 16 * length (el_bytes e))
  end.
(* With encoder 2 the next block starts after the gap, the cells of which stay as they are whatever the gap streams say; with
   encoder 1 the gap is part of the stream. *)
Definition lay_block (enc : N) (st : list bool * nat) (b : iblock) : list bool * nat :=
  let '(l, p) := fold_left lay_element (ib_elements b) st in
  (l, if (enc =? 2)%N then p + N.to_nat (ib_gap_bits b) else p).
Definition lay_track (enc : N) (t : itrack) : list bool :=
  fst (fold_left (lay_block enc) (tk_blocks t)
         (map (fun i => i mod 2 =? 1) (seq 0 (N.to_nat (tk_bits t))), N.to_nat (tk_start t))).

(* The tracks of a disk of C cylinders and H heads, in any order. *)
Definition all_tracks (C H : nat) : list (N * N) :=
  flat_map (fun c => map (fun h => (N.of_nat c, N.of_nat h)) (seq 0 H)) (seq 0 C).
