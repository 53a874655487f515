(* Hxc_proofs.v - the HxC loaders. *)
From Verif Require Import Base Base_lemmas BitRing_proofs Mfm_spec Bs_general_proofs
  Chs_model BitRing_model Mfm_model Types_model System34_model MetaSector_model BitStream_model DiskImage_model DiskImage_spec DiskImage_proofs
  Format_model Raw_model Format2_proofs TreeMap_proofs Pce_spec Pce3_proofs F86_model F86_spec F86_proofs F86b_proofs Layout_spec Layout_proofs Tc_proofs
  Hxc_model Hxc_spec.
From Coq Require Import Lia.

(* ---- fields ---- *)
Lemma le16_pos l p : read_le16 (skipn p l) = if p + 2 <=? length l then Ok (le16_at l p, skipn (p + 2) l) else Err IoError.
Proof. destruct (le_reader l p) as [A B]. destruct (Nat.leb_spec (p + 2) (length l)); auto. Qed.
Lemma u8_pos l p : read_u8 (skipn p l) = if p + 1 <=? length l then Ok (byte_at l p, skipn (p + 1) l) else Err IoError.
Proof.
  destruct (Nat.leb_spec (p + 1) (length l)) as [A|A].
  - destruct (skipn p l) as [|x r] eqn:E; [apply (f_equal (@length _)) in E; rewrite skipn_length in E; cbn in E; lia|].
    cbn [read_u8]. unfold byte_at. rewrite (nth_skip _ _ _ _ _ E). apply skip_one in E. rewrite Nat.add_1_r, E. reflexivity.
  - rewrite skipn_all2 by lia. reflexivity.
Qed.
Lemma le32_pos l p : read_le32 (skipn p l) = if p + 4 <=? length l then Ok (le32_at l p, skipn (p + 4) l) else Err IoError.
Proof.
  destruct (Nat.leb_spec (p + 4) (length l)) as [A|A].
  - rewrite two_bytes by lia. rewrite two_bytes by lia. cbn [read_le32]. unfold le32_at, le16_at, byte_at. replace (p + 2 + 2) with (p + 4) by lia.
    f_equal. f_equal. lia.
  - assert (L : length (skipn p l) < 4) by (rewrite skipn_length; lia). destruct (skipn p l) as [|a [|b [|c [|e r]]]]; try reflexivity. cbn in L. lia.
Qed.
Lemma exact_pos n l p : 0 < n -> read_exact n (skipn p l) = if p + n <=? length l then Ok (bytes_at l p n, skipn (p + n) l) else Err IoError.
Proof.
  intros Hn. unfold read_exact. rewrite skipn_length. destruct (Nat.leb_spec (p + n) (length l)) as [A|A].
  - replace (length l - p <? n) with false by (symmetry; apply Nat.ltb_ge; lia). rewrite skipn_skipn', (Nat.add_comm n p). reflexivity.
  - replace (length l - p <? n) with true by (symmetry; apply Nat.ltb_lt; lia). reflexivity.
Qed.
Lemma bytes_at_nth l p n k : k < n -> nth k (bytes_at l p n) 0%N = byte_at l (p + k).
Proof. intros H. unfold bytes_at. rewrite nth_firstn by exact H. apply nth_skipn'. Qed.
Lemma bytes_at_map l p n : p + n <= length l -> bytes_at l p n = map (fun k => byte_at l (p + k)) (seq 0 n).
Proof.
  intros H. apply nth_ext' with 0%N 0%N; [unfold bytes_at; rewrite firstn_length, skipn_length, map_length, seq_length; lia|].
  intros i Hi. unfold bytes_at in Hi. rewrite firstn_length in Hi. rewrite bytes_at_nth by lia.
  rewrite nth_map_seq by lia. reflexivity.
Qed.
Lemma magic_eq : forall (m l : list N), length l = length m -> forallb (fun p => fst p =? snd p)%N (combine l m) = true <-> l = m.
Proof.
  induction m as [|x m IH]; intros [|y l] L; try discriminate; [split; reflexivity|]. cbn [combine forallb fst snd].
  injection L as L. rewrite Bool.andb_true_iff, N.eqb_eq, (IH l L). split; [intros [-> ->]; reflexivity|intros E; injection E as -> ->; auto].
Qed.
(* one field after the other *)
Lemma step_ok {A B} (b : bool) (x : A) (k : A -> outcome B) : b = true -> obind (if b then Ok x else Err IoError) k = k x.
Proof. intros ->. reflexivity. Qed.
Ltac inside := apply Nat.leb_le; lia.

(* ---- .mfm ---- *)
Lemma hxm_header_of file : hxm_header file =
  if 19 <=? length file
  then if forallb (fun p => fst p =? snd p)%N (combine (map (byte_at file) (seq 0 6)) [0x48; 0x58; 0x43; 0x4D; 0x46; 0x4D]%N)
       then Ok (mkHxm (le16_at file 7) (byte_at file 9) (byte_at file 14) (le32_at file 15)) else Err UnsupportedFormat
  else Ok (mkHxm 0 0 0 0).
Proof.
  unfold hxm_header. change file with (skipn 0 file) at 1. rewrite exact_pos by lia. change (0 + 7) with 7. destruct (Nat.leb_spec 19 (length file)) as [A|A].
  - rewrite step_ok by inside. rewrite le16_pos, step_ok by inside. change (7 + 2) with 9. rewrite u8_pos, step_ok by inside. change (9 + 1) with 10.
    rewrite exact_pos, step_ok by (try inside; lia). change (10 + 4) with 14. rewrite u8_pos, step_ok by inside. change (14 + 1) with 15.
    rewrite le32_pos, step_ok by inside.
    assert (E : firstn 6 (bytes_at file 0 7) = map (byte_at file) (seq 0 6)) by (unfold bytes_at; rewrite firstn_firstn; change (Nat.min 6 7) with 6; apply (bytes_at_map file 0 6); lia).
    rewrite E. reflexivity.
  - destruct (Nat.leb_spec 7 (length file)) as [B1|B1]; cbn [obind]; [|reflexivity]. rewrite le16_pos. change (7 + 2) with 9.
    destruct (Nat.leb_spec 9 (length file)) as [B2|B2]; cbn [obind]; [|reflexivity]. rewrite u8_pos. change (9 + 1) with 10.
    destruct (Nat.leb_spec 10 (length file)) as [B3|B3]; cbn [obind]; [|reflexivity]. rewrite exact_pos by lia. change (10 + 4) with 14.
    destruct (Nat.leb_spec 14 (length file)) as [B4|B4]; cbn [obind]; [|reflexivity]. rewrite u8_pos. change (14 + 1) with 15.
    destruct (Nat.leb_spec 15 (length file)) as [B5|B5]; cbn [obind]; [|reflexivity]. rewrite le32_pos. change (15 + 4) with 19.
    destruct (Nat.leb_spec 19 (length file)) as [B6|B6]; cbn [obind]; [lia|reflexivity].
Qed.
Definition track_at (adv : bool) (l : list N) (p : nat) : HxmTrack :=
  mkHxmT (le16_at l p) (byte_at l (p + 2)) (le32_at l (p + (if adv then 7 else 3))) (le32_at l (p + (if adv then 11 else 7))).
Lemma hxm_track_pos (adv : bool) l p : let n := if adv then 15 else 11 in
  (p + n <= length l -> hxm_track adv (skipn p l) = Ok (track_at adv l p, skipn (p + n) l)) /\
  (length l < p + n -> exists e, hxm_track adv (skipn p l) = Err e).
Proof.
  cbv zeta. unfold hxm_track. split; intros H.
  - rewrite le16_pos, step_ok by (destruct adv; inside). rewrite u8_pos, step_ok by (destruct adv; inside). destruct adv.
    + rewrite exact_pos, step_ok by (try inside; lia). rewrite le32_pos, step_ok by inside. rewrite le32_pos, step_ok by inside.
      unfold track_at. rewrite <- !Nat.add_assoc. reflexivity.
    + cbn [obind]. rewrite le32_pos, step_ok by inside. rewrite le32_pos, step_ok by inside. unfold track_at. rewrite <- !Nat.add_assoc. reflexivity.
  - rewrite le16_pos. destruct (p + 2 <=? length l); cbn [obind]; [|eauto]. rewrite u8_pos. destruct (p + 2 + 1 <=? length l); cbn [obind]; [|eauto].
    destruct adv.
    + rewrite exact_pos by lia. destruct (p + 2 + 1 + 4 <=? length l); cbn [obind]; [|eauto]. rewrite le32_pos. destruct (p + 2 + 1 + 4 + 4 <=? length l); cbn [obind]; [|eauto].
      rewrite le32_pos. replace (p + 2 + 1 + 4 + 4 + 4 <=? length l) with false by (symmetry; apply Nat.leb_gt; lia). cbn [obind]. eauto.
    + cbn [obind]. rewrite le32_pos. destruct (p + 2 + 1 + 4 <=? length l); cbn [obind]; [|eauto].
      rewrite le32_pos. replace (p + 2 + 1 + 4 + 4 <=? length l) with false by (symmetry; apply Nat.leb_gt; lia). cbn [obind]. eauto.
Qed.
Lemma hxm_table_pos (adv : bool) l : let k := if adv then 15 else 11 in forall n p,
  (p + n * k <= length l -> hxm_table adv n (skipn p l) = Ok (map (fun i => track_at adv l (p + i * k)) (seq 0 n))) /\
  (length l < p + n * k -> 0 < n -> hxm_table adv n (skipn p l) = Err FormatParseError).
Proof.
  intros k. induction n as [|n IH]; intros p; [split; [reflexivity|lia]|]. cbn [hxm_table]. destruct (hxm_track_pos adv l p) as [A B]. fold k in A, B.
  split; intros H.
  - rewrite A by lia. destruct (IH (p + k)) as [C _]. rewrite C by lia. cbn [obind seq map]. f_equal. f_equal; [f_equal; lia|].
    rewrite <- seq_shift, map_map. apply map_ext. intros i. f_equal. lia.
  - intros _. destruct (Nat.le_gt_cases (p + k) (length l)) as [C|C]; [rewrite A by exact C|destruct (B C) as [e E]; rewrite E; reflexivity].
    destruct (IH (p + k)) as [_ D]. destruct n as [|n]; [lia|]. rewrite D by lia. reflexivity.
Qed.
Definition hxm_job (file : list N) (i : nat) : AddJob :=
  mkJob (mkCh (as_u8 (hxm_cyl file i)) (hxm_side file i)) (hxm_data file i) None (hxm_ct file i) false.
Lemma entry_at file i : track_at (hxm_advanced file) file (hxm_entry file i) = mkHxmT (hxm_cyl file i) (hxm_side file i) (hxm_size file i) (hxm_offset file i).
Proof. reflexivity. Qed.
Lemma hxm_tracks_jobs rnd file : forall n i d,
  (forall k, i <= k < i + n -> hxm_octets file k = 0%N \/ (hxm_offset file k + hxm_octets file k <= N.of_nat (length file))%N) ->
  hxm_tracks rnd file (hxm_advanced file) (map (fun k => mkHxmT (hxm_cyl file k) (hxm_side file k) (hxm_size file k) (hxm_offset file k)) (seq i n)) d =
  add_jobs rnd (map (hxm_job file) (seq i n)) d.
Proof.
  induction n as [|n IH]; intros i d H; [reflexivity|]. cbn [seq map hxm_tracks add_jobs ht_track ht_side ht_size ht_offset].
  fold (hxm_octets file i). fold (hxm_ct file i).
  assert (Er : exists r, read_exact (N.to_nat (hxm_octets file i)) (skipn (N.to_nat (hxm_offset file i)) file) = Ok (hxm_data file i, r)).
  { unfold read_exact. eexists. replace (length (skipn (N.to_nat (hxm_offset file i)) file) <? N.to_nat (hxm_octets file i)) with false; [reflexivity|].
    symmetry. apply Nat.ltb_ge. rewrite skipn_length. specialize (H i ltac:(lia)). lia. }
  destruct Er as [r Er]. cbv zeta. rewrite Er. cbn [obind]. unfold add_job, hxm_job at 1. cbn [aj_ch aj_data aj_weak aj_ct aj_detect].
  change (aj_ch (hxm_job file i)) with (mkCh (as_u8 (hxm_cyl file i)) (hxm_side file i)).
  change (aj_data (hxm_job file i)) with (hxm_data file i). change (aj_weak (hxm_job file i)) with (@None (list N)). change (aj_ct (hxm_job file i)) with (hxm_ct file i). change (aj_detect (hxm_job file i)) with false.
  destruct (add_track_bitstream _ _ _ _ _ _ _) as [d1 [x| |]]; cbn [obind]; [|reflexivity|reflexivity].
  apply IH. intros k Hk. apply H. lia.
Qed.
(* position in the filtered list *)
Lemma filter_rank {A} (p : A -> bool) : forall l i x, nth_error l i = Some x -> p x = true ->
  nth_error (filter p l) (length (filter p (firstn i l))) = Some x.
Proof.
  induction l as [|y l IH]; intros i x H P; [destruct i; discriminate|]. destruct i as [|i].
  - injection H as ->. cbn [firstn filter length]. rewrite P. reflexivity.
  - cbn [firstn filter]. destruct (p y); cbn [length nth_error]; apply IH; assumption.
Qed.
(* a track made without weak cells *)
Lemma new_plain rnd ch data ct t : bt_new rnd ch data None ct false = Ok t -> (data = [] -> ct = Some 0) ->
  bt_ch t = ch /\ cells t = match ct with Some n => firstn n (flat_map byte_bits data) | None => flat_map byte_bits data end.
Proof.
  intros E Hd. split; [eapply bt_new_ch; exact E|]. destruct (new_cells _ _ _ _ _ E) as (m & bits & Em & B1 & B2 & E1 & _).
  assert (Hc : cells t = match ct with Some n => firstn n bits | None => bits end).
  { unfold cells, mfm_data. rewrite E1. unfold mfm_new in Em. destruct (_ <? _); [discriminate|]. injection Em as <-. reflexivity. }
  rewrite Hc. destruct data as [|x y].
  - rewrite (Hd eq_refl). rewrite !firstn_O. reflexivity.
  - rewrite B1 by discriminate. reflexivity.
Qed.
Lemma new_nonempty rnd ch ct t : bt_new rnd ch [] None ct false = Ok t -> ct <> None.
Proof. intros E ->. discriminate. Qed.
