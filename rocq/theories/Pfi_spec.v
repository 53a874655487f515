(* Pfi_spec.v - PCE flux files, following the description of the format. *)
From Verif Require Import Base Chs_model BitRing_model Mfm_model Types_model System34_model MetaSector_model BitStream_model DiskImage_model Pce_model Pll_model Flux_model Flux_spec.
Import ListNotations.
Local Open Scope nat_scope.

(* ---- the data of a track ---- *)
(* the five ways to write a time *)
Inductive code_of : list N -> N -> Prop :=
| code_byte : forall b, (8 <= b < 256)%N -> code_of [b] b
| code_short : forall b x, (4 <= b < 8)%N -> (x < 256)%N -> code_of [b; x] (256 * (b - 4) + x)
| code_2 : forall x y, (x < 256)%N -> (y < 256)%N -> code_of [1; x; y]%N (256 * x + y)
| code_3 : forall x y z, (x < 256)%N -> (y < 256)%N -> (z < 256)%N -> code_of [2; x; y; z]%N (65536 * x + 256 * y + z)
| code_4 : forall x y z w, (x < 256)%N -> (y < 256)%N -> (z < 256)%N -> (w < 256)%N -> code_of [3; x; y; z; w]%N (16777216 * x + 65536 * y + 256 * z + w).
Definition coded (data times : list N) : Prop :=
  exists codes : list (list N * N), Forall (fun c => code_of (fst c) (snd c)) codes /\ data = concat (map fst codes) /\ times = map snd codes.
Definition total (l : list N) : N := fold_right N.add 0%N l.
(* the clock when j transitions have passed *)
Definition clock_at (times : list N) (j : nat) : N := total (firstn j times).
(* The index pulses at the clocks `index` fall at the transitions `cuts`: each at the first of the transitions from..lim-1, behind the cut before,
   where its clock is reached; a pulse that is not reached ends the list. *)
Inductive cuts (times : list N) (lim : nat) : nat -> list N -> list nat -> Prop :=
| cuts_nil : forall from, cuts times lim from [] []
| cuts_out : forall from x index, (forall j, from <= j < lim -> (clock_at times j < x)%N) -> cuts times lim from (x :: index) []
| cuts_at : forall from x index j js, from <= j < lim -> (forall i, from <= i < j -> (clock_at times i < x)%N) -> (x <= clock_at times j)%N ->
    cuts times lim (S j) index js -> cuts times lim from (x :: index) (j :: js).
(* the stretches between neighbouring borders, with their durations *)
Fixpoint stretches (times : list N) (borders : list nat) : list Rev :=
  match borders with
  | p :: (q :: _) as t => (firstn (q - p) (skipn p times), total (firstn (q - p) (skipn p times))) :: stretches times t
  | _ => []
  end.
(* The revolutions of a track: from one index pulse to the next, the last one ending with the data if a pulse is missing.  What comes before
   the first pulse and after the last is left out; bytes behind the last pulse mean nothing. *)
Definition pfi_revolutions (data index : list N) (revs : list Rev) : Prop :=
  index <> [] /\
  exists read times tail js, data = read ++ tail /\ coded read times /\ (total times < 2 ^ 32)%N /\
    (tail = [] /\ cuts times (length times) 0 index js \/
     tail <> [] /\ cuts times (length times + 1) 0 index js /\ length js = length index /\ last js 0 = length times) /\
    revs = stretches times (if length js =? length index then js else js ++ [length times]).

(* ---- the file ---- *)
Definition Chunk : Set := (list N * list N)%type.
Definition PFI_ : list N := [0x50; 0x46; 0x49; 0x20]%N.
Definition TRAK : list N := [0x54; 0x52; 0x41; 0x4B]%N.
Definition INDX : list N := [0x49; 0x4E; 0x44; 0x58]%N.
Definition DATA : list N := [0x44; 0x41; 0x54; 0x41]%N.
Definition END_ : list N := [0x45; 0x4E; 0x44; 0x20]%N.
Definition chunks_bytes (cs : list Chunk) : list N := flat_map (fun c => write_chunk (fst c) (snd c)) cs.
Definition small (c : Chunk) : Prop := (N.of_nat (length (snd c)) <= 0x1000000)%N.
(* text and unknown chunks *)
Definition aside (c : Chunk) : Prop := length (fst c) = 4 /\ fst c <> TRAK /\ fst c <> INDX /\ fst c <> DATA /\ fst c <> END_.
Definition aside_ok (cs : list Chunk) : Prop := Forall aside cs /\ Forall small cs.
Record TrackDesc : Set := mkPT { pt_aside : list Chunk; pt_cyl : N; pt_head : N; pt_clock : N; pt_more : list N; pt_aside2 : list Chunk; pt_index : list N; pt_aside3 : list Chunk; pt_data : list N }.
Definition track_chunks (t : TrackDesc) : list Chunk :=
  pt_aside t ++ [(TRAK, be32 (pt_cyl t) ++ be32 (pt_head t) ++ be32 (pt_clock t) ++ pt_more t)] ++ pt_aside2 t ++ [(INDX, flat_map be32 (pt_index t))] ++
  pt_aside3 t ++ [(DATA, pt_data t)].
Definition pfi_file (header : list N) (ts : list TrackDesc) (last : list Chunk) (end_data rest : list N) : list N :=
  chunks_bytes ((PFI_, header) :: flat_map track_chunks ts ++ last ++ [(END_, end_data)]) ++ rest.
Definition u32s (l : list N) : Prop := Forall (fun x => (x < 2 ^ 32)%N) l.
Record valid_track (t : TrackDesc) : Prop := mkVPT {
  vp_aside : aside_ok (pt_aside t) /\ aside_ok (pt_aside2 t) /\ aside_ok (pt_aside3 t);
  vp_words : u32s [pt_cyl t; pt_head t; pt_clock t] /\ u32s (pt_index t);
  vp_small : small (TRAK, be32 (pt_cyl t) ++ be32 (pt_head t) ++ be32 (pt_clock t) ++ pt_more t) /\ small (INDX, flat_map be32 (pt_index t)) /\ small (DATA, pt_data t) }.
