(* Mfi_spec.v - MAME floppy images: the fields of the file by position. *)
From Verif Require Import Base Chs_model DiskImage_model Layout_spec.
Local Open Scope nat_scope.

(* entry i of the track table *)
Definition mfi_offset (file : list N) (i : nat) : N := le32_at file (32 + 16 * i).
Definition mfi_packed (file : list N) (i : nat) : N := le32_at file (32 + 16 * i + 4).
Definition mfi_size (file : list N) (i : nat) : N := le32_at file (32 + 16 * i + 8).
Definition mfi_unformatted (file : list N) (i : nat) : Prop := mfi_offset file i = 0%N \/ mfi_packed file i = 0%N \/ mfi_size file i = 0%N.
(* an image of so many cylinders and heads *)
Record mfi_file (file : list N) (cyls heads : nat) : Prop := mkMfiFile {
  mf_magic : bytes_at file 0 15 = [0x4D; 0x41; 0x4D; 0x45; 0x46; 0x4C; 0x4F; 0x50; 0x50; 0x59; 0x49; 0x4D; 0x41; 0x47; 0x45]%N;   (* MAMEFLOPPYIMAGE *)
  mf_form : In (bytes_at file 24 4) [[0x33; 0x35; 0x20; 0x20]; [0x35; 0x32; 0x35; 0x20]; [0x38; 0x20; 0x20; 0x20]]%N;            (* 35, 525, 8 *)
  mf_cyls : N.of_nat cyls = (le32_at file 16 mod 65536)%N /\ 1 <= cyls;
  mf_heads : N.of_nat heads = (le32_at file 20 mod 256)%N /\ 1 <= heads;
  mf_table : 32 + 16 * (cyls * heads) <= length file;
  mf_offsets : forall i, i < cyls * heads -> (mfi_offset file i <= N.of_nat (length file))%N;
  (* data does not start before the data of the last track that has some *)
  mf_order : forall i j, i < cyls * heads -> j < i -> (0 < mfi_packed file i)%N -> mfi_offset file j <> 0%N -> (forall k, j < k < i -> mfi_offset file k = 0%N) -> (mfi_offset file j <= mfi_offset file i)%N }.
(* flux data: 32-bit words, little endian; those below 2^28 are times, those of types 1, 2 and 3 zones *)
Definition mfi_words (data : list N) : list N := map (fun k => le32_at data (4 * k)) (seq 0 (length data / 4)).
(* the flux times (ns) of track i *)
Definition mfi_times (inflate : list N -> nat -> option (list N)) (file : list N) (i : nat) (times : list N) : Prop :=
  (mfi_unformatted file i /\ times = []) \/
  (~ mfi_unformatted file i /\ (mfi_offset file i + mfi_packed file i <= N.of_nat (length file))%N /\
   exists data, inflate (bytes_at file (N.to_nat (mfi_offset file i)) (N.to_nat (mfi_packed file i))) (N.to_nat (mfi_size file i)) = Some data /\
     Forall (fun w => w < 2 ^ 30)%N (mfi_words data) /\ times = filter (fun w => w <? 2 ^ 28)%N (mfi_words data)).

From Verif Require Import Pll_spec Hist_spec.
From Coq Require Import QArith Qabs.
Import ListNotations.
Local Close Scope Q_scope.
(* MFI times are parts of a revolution, 200 million of them: nanoseconds at 300 RPM.  So the 1 us cells of a high density track at 360 RPM last
   1.2 us in the file.  Transitions up to 0.9% of a cell early or late. *)
Record recording_360 (cell : Q) (gaps : list nat) (deltas : list Q) : Prop := {
  r3_mfm : mfm_gaps gaps;
  r3_some : gaps <> [];
  r3_medium : 6 * length gaps <= 100 * count_occ Nat.eq_dec gaps 3;
  r3_near : near cell ((9 # 1000) * cell)%Q gaps deltas;
  r3_time : (cell * (Qnat (list_sum gaps) + 10) <= 1 # 2)%Q }.
(* the first 2% of the distances have at least 2% of 2 cells and 6% of 3 cells *)
Definition starts_well (gaps : list nat) : Prop := forall k, 50 * k <= length gaps + 50 -> length gaps <= 50 * k + 50 ->
  2 * k <= 100 * count_occ Nat.eq_dec (firstn k gaps) 2 /\ 6 * k <= 100 * count_occ Nat.eq_dec (firstn k gaps) 3.
