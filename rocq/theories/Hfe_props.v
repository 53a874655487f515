(* Hfe_props.v - C55: HFE files. *)
From Verif Require Import Base Base_lemmas BitRing_proofs Mfm_spec Bs_general_proofs
  Chs_model BitRing_model Mfm_model Types_model System34_model MetaSector_model BitStream_model DiskImage_model DiskImage_spec DiskImage_proofs
  Format_model Raw_model Format2_proofs TreeMap_proofs Pce_spec Pce3_proofs F86_model F86_spec F86_proofs F86b_proofs Layout_spec Layout_proofs Tc_proofs
  Hxc_model Hxc_spec Hxc_proofs Hfe_proofs Hxm_props.
From Coq Require Import Lia.

Definition hfe_heads (file : list N) : nat := if (1 <? hfe_sides file)%N then 2 else 1.
Definition hfe_bytes (file : list N) (i side : nat) : list N := map (fun j => reverse_bits (byte_at file (hfe_loaded_pos file i side j))) (seq 0 (hfe_len file i / 2)).
Definition hfe_job (file : list N) (k idx : nat) : AddJob :=
  mkJob (mkCh (N.of_nat (idx / k)) (N.of_nat (idx mod k))) (hfe_bytes file (idx / k) (idx mod k)) None None false.
Lemma hfe_bytes_0 file i : map (byte0 file (hfe_pos file i)) (seq 0 (hfe_len file i / 2)) = hfe_bytes file i 0.
Proof. apply map_ext. intros j. unfold byte0, hfe_loaded_pos. rewrite Nat.mul_0_r, Nat.add_0_r. reflexivity. Qed.
Lemma hfe_bytes_1 file i : map (byte1 file (hfe_pos file i) (hfe_len file i)) (seq 0 (hfe_len file i / 2)) = hfe_bytes file i 1.
Proof. apply map_ext. intros j. unfold byte1, hfe_loaded_pos. rewrite Nat.mul_1_r. reflexivity. Qed.
Definition loadable_track (file : list N) (i : nat) : Prop :=
  Nat.even (hfe_len file i) = true /\ (hfe_len file i = 0 \/ hfe_pos file i + hfe_len file i <= length file).
Lemma track_blocks file i : loadable_track file i ->
  hfe_blocks (S (N.to_nat (snd (index_at file i)))) (N.to_nat (snd (index_at file i))) (skipn (N.to_nat (fst (index_at file i) * 512)) file) [] [] = Ok (hfe_bytes file i 0, hfe_bytes file i 1).
Proof.
  intros [Ev H]. unfold index_at. cbn [fst snd]. replace (N.to_nat (le16_at file (hfe_entry file i) * 512)) with (hfe_pos file i) by (unfold hfe_pos; lia).
  fold (hfe_len file i). destruct H as [Z|H].
  - unfold hfe_bytes. rewrite Z. reflexivity.
  - rewrite blocks_ok; [rewrite hfe_bytes_0, hfe_bytes_1; reflexivity|exact Ev| |exact H].
    pose proof (Nat.div_le_upper_bound (hfe_len file i) 512 (hfe_len file i) ltac:(discriminate) ltac:(lia)). lia.
Qed.
Lemma hfe_tracks_jobs rnd file : forall n i d, i + n = hfe_count file ->
  (forall k, i <= k < i + n -> loadable_track file k) -> (forall k, i <= k -> S k < i + n -> hfe_pos file k <= hfe_pos file (S k)) ->
  (0 < n -> hfe_pos file (i + n - 1) <= length file) ->
  let k := hfe_heads file in
  hfe_tracks rnd file (hfe_sides file) (map (index_at file) (seq i n)) (N.of_nat i) d = add_jobs rnd (map (hfe_job file k) (seq (i * k) (n * k))) d.
Proof.
  induction n as [|n IH]; intros i d Hc Hl Ho Hend k; [reflexivity|]. cbn [seq map hfe_tracks].
  destruct (index_at file i) as [o z] eqn:Ei.
  assert (Hpos : N.to_nat (o * 512) = hfe_pos file i) by (unfold index_at in Ei; injection Ei as <- _; unfold hfe_pos; lia).
  assert (En : ((match map (index_at file) (seq (S i) n) with (o0, _) :: _ => o0 * 512 | [] => N.of_nat (length file) end) <? o * 512)%N = false).
  { apply N.ltb_ge. destruct n as [|n].
    - cbn [seq map]. specialize (Hend ltac:(lia)). replace (i + 1 - 1) with i in Hend by lia. lia.
    - cbn [seq map]. unfold index_at. specialize (Ho i ltac:(lia) ltac:(lia)). unfold hfe_pos in *. lia. }
  cbv zeta. rewrite En. pose proof (track_blocks file i (Hl i ltac:(lia))) as B. rewrite Ei in B. cbn [fst snd] in B. rewrite B. cbn [obind].
  assert (Hk : k = 1 \/ k = 2) by (unfold k, hfe_heads; destruct (1 <? hfe_sides file)%N; auto).
  assert (J0 : hfe_job file k (i * k) = mkJob (mkCh (N.of_nat i) 0) (hfe_bytes file i 0) None None false).
  { unfold hfe_job. rewrite Nat.div_mul, Nat.mod_mul by (destruct Hk; lia). reflexivity. }
  assert (Next : forall d1, hfe_tracks rnd file (hfe_sides file) (map (index_at file) (seq (S i) n)) (N.of_nat i + 1) d1 = add_jobs rnd (map (hfe_job file k) (seq (S i * k) (n * k))) d1).
  { intros d1. replace (N.of_nat i + 1)%N with (N.of_nat (S i)) by lia. apply IH; [lia| | |].
    - intros q Hq. apply Hl. lia.
    - intros q H1 H2. apply Ho; lia.
    - intros Hn. replace (S i + n - 1) with (i + S n - 1) by lia. apply Hend. lia. }
  destruct (1 <? hfe_sides file)%N eqn:Es; [assert (Ek : k = 2) by (unfold k, hfe_heads; rewrite Es; reflexivity)|assert (Ek : k = 1) by (unfold k, hfe_heads; rewrite Es; reflexivity)].
  - assert (J1 : hfe_job file k (S (i * k)) = mkJob (mkCh (N.of_nat i) 1) (hfe_bytes file i 1) None None false).
    { unfold hfe_job. rewrite Ek. assert (D : S (i * 2) / 2 = i /\ S (i * 2) mod 2 = 1) by dlia. destruct D as [-> ->]. reflexivity. }
    replace (seq (i * k) (S n * k)) with (i * k :: S (i * k) :: seq (S i * k) (n * k)) by (rewrite Ek; cbn [Nat.mul Nat.add seq]; reflexivity).
    cbn [map add_jobs]. rewrite J0, J1. unfold add_job. cbn [aj_ch aj_data aj_weak aj_ct aj_detect].
    destruct (add_track_bitstream rnd d (mkCh (N.of_nat i) 0) (hfe_bytes file i 0) None None false) as [d1 [x| |]]; cbn [obind]; [|reflexivity|reflexivity].
    destruct (add_track_bitstream rnd d1 (mkCh (N.of_nat i) 1) (hfe_bytes file i 1) None None false) as [d2 [y| |]]; cbn [obind]; [|reflexivity|reflexivity]. apply Next.
  - replace (seq (i * k) (S n * k)) with (i * k :: seq (S i * k) (n * k)) by (rewrite Ek; cbn [Nat.mul Nat.add seq]; reflexivity).
    cbn [map add_jobs]. rewrite J0. unfold add_job. cbn [aj_ch aj_data aj_weak aj_ct aj_detect].
    destruct (add_track_bitstream rnd d (mkCh (N.of_nat i) 0) (hfe_bytes file i 0) None None false) as [d1 [x| |]]; cbn [obind]; [|reflexivity|reflexivity]. apply Next.
Qed.
Lemma odd_even_len file i : N.odd (le16_at file (hfe_entry file i + 2)) = false <-> Nat.even (hfe_len file i) = true.
Proof.
  unfold hfe_len. remember (le16_at file (hfe_entry file i + 2)) as z. clear. rewrite <- N.negb_even, Bool.negb_false_iff, N.even_spec, Nat.even_spec. split; intros [m Hm].
  - exists (N.to_nat m). lia.
  - exists (N.of_nat m). lia.
Qed.
Lemma hfe_load_eq rnd d file : 26 <= length file -> map (byte_at file) (seq 0 8) = [0x48; 0x58; 0x43; 0x50; 0x49; 0x43; 0x46; 0x45]%N ->
  hfe_load_image rnd d file = let! ts := hfe_index (hfe_count file) (skipn (hfe_entry file 0) file) in
    let! d := hfe_tracks rnd file (hfe_sides file) ts 0 d in Ok (with_geom d (mkCh (byte_at file 9) (hfe_sides file))).
Proof.
  intros L M. unfold hfe_load_image. rewrite hfe_header_of. replace (26 <=? length file) with true by (symmetry; apply Nat.leb_le; exact L).
  rewrite M. cbn [combine forallb fst snd]. rewrite !N.eqb_refl. cbn [andb obind hf_tracks hf_sides hf_list]. unfold hfe_entry. rewrite Nat.mul_0_r, Nat.add_0_r. reflexivity.
Qed.
Lemma hfe_index_ok file : (forall i, i < hfe_count file -> hfe_entry file i + 4 <= length file /\ Nat.even (hfe_len file i) = true) ->
  hfe_index (hfe_count file) (skipn (hfe_entry file 0) file) = Ok (map (index_at file) (seq 0 (hfe_count file))).
Proof.
  intros H. destruct (hfe_index_pos file (hfe_count file) (hfe_entry file 0)) as (A & _ & _).
  assert (E : forall i, hfe_entry file 0 + 4 * i = hfe_entry file i) by (intros i; unfold hfe_entry; rewrite Nat.mul_0_r, Nat.add_0_r; reflexivity).
  rewrite A; [f_equal; apply map_ext; intros i; rewrite !E; reflexivity|]. intros i Hi. rewrite !E. destruct (H i Hi) as [H1 H2]. split; [exact H1|]. apply odd_even_len. exact H2.
Qed.
Lemma bits_loaded file i side : bytes_ok file = true -> flat_map byte_bits (hfe_bytes file i side) = hfe_loaded_cells file i side.
Proof.
  intros Hb. unfold hfe_bytes, hfe_loaded_cells. generalize (seq 0 (hfe_len file i / 2)). induction l as [|j l IH]; [reflexivity|]. cbn [map flat_map].
  rewrite IH, reverse_spec by (apply bytes_ok_at; exact Hb). reflexivity.
Qed.
(* ---- C55 ---- *)
Theorem C55_load : forall rnd file, bytes_ok file = true -> hfe_file file ->
  (forall i h, i < hfe_count file -> h < hfe_heads file -> exists ch t, bt_new (rnd_bit rnd) ch (hfe_bytes file i h) None None false = Ok t) ->
  exists d' s', hfe_load_image rnd di_default file = Ok d' /\ maps_valid d' /\ shows d' s' /\
    di_geom d' = mkCh (byte_at file 9) (hfe_sides file) /\
    length (fst s') = hfe_count file /\ length (snd s') = (if (1 <? hfe_sides file)%N then hfe_count file else 0) /\
    forall i h, i < hfe_count file -> h < hfe_heads file -> exists t, nth_error (side s' (N.of_nat h)) i = Some (TBit t) /\
      bt_ch t = mkCh (N.of_nat i) (N.of_nat h) /\ cells t = hfe_loaded_cells file i h.
Proof.
  intros rnd file Hb V Hscan. set (n := hfe_count file) in *. rewrite hfe_load_eq by apply V.
  rewrite hfe_index_ok by (intros i Hi; split; [apply (he_table _ V i Hi)|apply (he_even _ V i Hi)]). cbn [obind]. fold n.
  pose proof (hfe_tracks_jobs rnd file n 0 di_default eq_refl) as T. cbv zeta in T. change (N.of_nat 0) with 0%N in T. rewrite Nat.mul_0_l in T.
  set (k := hfe_heads file) in *. assert (Hk : k = 1 \/ k = 2) by (unfold k, hfe_heads; destruct (1 <? hfe_sides file)%N; auto).
  rewrite T.
  2: { intros q Hq. split; [apply (he_even _ V); fold n; lia|right; apply (he_inside _ V); fold n; lia]. }
  2: { intros q _ Hq. apply (he_order _ V). fold n. lia. }
  2: { intros Hn. pose proof (he_inside _ V (n - 1) ltac:(fold n; lia)) as I. replace (0 + n - 1) with (n - 1) by lia. lia. }
  destruct (interleaved rnd k n (hfe_job file k) Hk) as (d1 & s' & E & W & L0 & L1 & Ts).
  { intros i Hi. reflexivity. }
  { intros i Hi. assert (H1 : i / k < n) by (apply Nat.div_lt_upper_bound; [destruct Hk; lia|lia]). assert (H2 : i mod k < k) by (apply Nat.mod_upper_bound; destruct Hk; lia).
    destruct (Hscan (i / k) (i mod k) H1 H2) as (ch & t & Et). apply new_any_ch with (ch' := mkCh (N.of_nat (i / k)) (N.of_nat (i mod k))) in Et. eexists. exact Et. }
  rewrite E. cbn [obind]. set (d2 := with_geom d1 _). exists d2, s'. split; [reflexivity|]. assert (W' : wf d2 s') by exact W.
  split; [apply W'|]. split; [apply wf_shows; exact W'|]. split; [reflexivity|]. split; [exact L0|].
  split; [rewrite L1; unfold k, hfe_heads; destruct (1 <? hfe_sides file)%N; reflexivity|].
  intros i h Hi Hh. destruct (Ts (i * k + h)) as (t & Et & Nt).
  { assert (S i * k <= n * k) by (apply Nat.mul_le_mono_r; lia). lia. }
  assert (D : (i * k + h) / k = i /\ (i * k + h) mod k = h).
  { rewrite Nat.add_comm, Nat.div_add, Nat.mod_add by (destruct Hk; lia). rewrite Nat.div_small, Nat.mod_small by exact Hh. split; reflexivity. }
  destruct D as [D1 D2]. rewrite D1, D2 in Nt. exists t. split; [exact Nt|]. unfold job_track, hfe_job in Et. cbn [aj_ch aj_data aj_weak aj_ct aj_detect] in Et. rewrite D1, D2 in Et.
  destruct (new_plain _ _ _ _ _ Et) as [C1 C2].
  { intros Z. rewrite Z in Et. apply new_nonempty in Et. congruence. }
  split; [exact C1|]. rewrite C2. apply bits_loaded. exact Hb.
Qed.
(* The cells are those of the format for side 0, and for side 1 when the track is a whole number of blocks *)
Theorem C55_cells : forall file i h, h = 0 \/ hfe_len file i mod 512 = 0 -> hfe_loaded_cells file i h = hfe_cells file i h.
Proof.
  intros file i h H. unfold hfe_loaded_cells, hfe_cells. rewrite !flat_map_concat_map. f_equal. apply map_ext_in. intros j Hj. apply in_seq in Hj. do 3 f_equal.
  unfold hfe_loaded_pos, hfe_byte_pos. destruct H as [-> |H]; [rewrite !Nat.mul_0_r; reflexivity|].
  replace (j / 256 <? hfe_len file i / 512) with true; [reflexivity|]. symmetry. apply Nat.ltb_lt. apply Nat.div_lt_upper_bound; [discriminate|].
  pose proof (Nat.div_mod (hfe_len file i) 512 ltac:(discriminate)) as D. rewrite H, Nat.add_0_r in D. rewrite D in Hj.
  replace (512 * (hfe_len file i / 512)) with ((256 * (hfe_len file i / 512)) * 2) in Hj by (clear; lia). rewrite Nat.div_mul in Hj by discriminate. apply Hj.
Qed.
(* Only such files are loaded *)
Lemma hfe_tracks_inside rnd file : forall n i d d', i + n = hfe_count file -> (forall k, k < hfe_count file -> Nat.even (hfe_len file k) = true) ->
  hfe_tracks rnd file (hfe_sides file) (map (index_at file) (seq i n)) (N.of_nat i) d = Ok d' ->
  (forall k, i <= k < i + n -> hfe_pos file k <= length file /\ (hfe_len file k = 0 \/ hfe_pos file k + hfe_len file k <= length file)) /\ (forall k, i <= k -> S k < i + n -> hfe_pos file k <= hfe_pos file (S k)).
Proof.
  induction n as [|n IH]; intros i d d' Hc Hev E; [split; intros; lia|]. cbn [seq map hfe_tracks] in E. destruct (index_at file i) as [o z] eqn:Ei. cbv zeta in E.
  assert (Hz : N.to_nat z = hfe_len file i /\ N.to_nat (o * 512) = hfe_pos file i) by (unfold index_at in Ei; injection Ei as <- <-; unfold hfe_len, hfe_pos; lia).
  destruct Hz as [Hz Hp].
  match type of E with (if ?c then _ else _) = _ => destruct c eqn:En end; [discriminate|]. apply N.ltb_ge in En.
  rewrite Hz, Hp in E. destruct (hfe_blocks _ _ _ _ _) as [[a b]| |] eqn:Eb; cbn [obind] in E; try discriminate.
  assert (Hb : hfe_len file i = 0 \/ hfe_pos file i + hfe_len file i <= length file).
  { eapply blocks_inside; [apply Hev; lia| |exact Eb]. pose proof (Nat.div_le_upper_bound (hfe_len file i) 512 (hfe_len file i) ltac:(discriminate) ltac:(lia)). lia. }
  assert (Rec : exists d1, hfe_tracks rnd file (hfe_sides file) (map (index_at file) (seq (S i) n)) (N.of_nat (S i)) d1 = Ok d').
  { replace (N.of_nat (S i)) with (N.of_nat i + 1)%N by lia.
    destruct (add_track_bitstream _ _ _ _ _ _ _) as [d1 [x| |]]; cbn [obind] in E; try discriminate. destruct (1 <? hfe_sides file)%N; [|eauto].
    destruct (add_track_bitstream _ _ _ _ _ _ _) as [d2 [y| |]]; cbn [obind] in E; try discriminate. eauto. }
  destruct Rec as [d1 Rec]. destruct (IH (S i) d1 d' ltac:(lia) Hev Rec) as [I1 I2].
  assert (Hnext : n = 0 -> hfe_pos file i <= length file) by (intros ->; cbn [seq map] in En; lia).
  assert (Hnext2 : 0 < n -> hfe_pos file i <= hfe_pos file (S i)).
  { intros Hn. destruct n as [|n]; [lia|]. cbn [seq map] in En. unfold index_at in En. unfold hfe_pos. unfold hfe_pos in Hp. lia. }
  split.
  - intros k Hk. destruct (Nat.eq_dec k i) as [->|Ne]; [|apply I1; lia]. split; [|exact Hb].
    destruct (Nat.eq_dec n 0) as [Z|Z]; [apply Hnext; exact Z|]. eapply Nat.le_trans; [apply Hnext2; lia|]. apply I1. lia.
  - intros k H1 H2. destruct (Nat.eq_dec k i) as [->|Ne]; [apply Hnext2; lia|apply I2; lia].
Qed.
Theorem C55_accepted : forall rnd d file d', hfe_load_image rnd d file = Ok d' -> hfe_file file.
Proof.
  intros rnd d file d' E. pose proof E as E0. unfold hfe_load_image in E. rewrite hfe_header_of in E.
  destruct (Nat.leb_spec 26 (length file)) as [L|L]; [|discriminate]. destruct (forallb _ _) eqn:M; [|discriminate]. apply magic_eq in M; [|reflexivity]. clear E.
  rewrite hfe_load_eq in E0 by assumption. destruct (hfe_index _ _) as [ts| |] eqn:Ei; cbn [obind] in E0; try discriminate.
  destruct (hfe_index_pos file (hfe_count file) (hfe_entry file 0)) as (_ & B & _). specialize (B ts Ei). cbv zeta in B.
  assert (Ee : forall i, hfe_entry file 0 + 4 * i = hfe_entry file i) by (intros i; unfold hfe_entry; rewrite Nat.mul_0_r, Nat.add_0_r; reflexivity).
  assert (T : forall i, i < hfe_count file -> hfe_entry file i + 4 <= length file /\ Nat.even (hfe_len file i) = true).
  { intros i Hi. destruct (B i Hi) as [B1 B2]. rewrite Ee in B1, B2. split; [exact B1|]. apply odd_even_len. exact B2. }
  rewrite hfe_index_ok in Ei by exact T. injection Ei as <-. destruct (hfe_tracks _ _ _ _ _ _) as [d1| |] eqn:Et; cbn [obind] in E0; try discriminate.
  change 0%N with (N.of_nat 0) in Et. apply hfe_tracks_inside in Et; [|reflexivity|intros k Hk; apply T; exact Hk]. destruct Et as [I1 I2].
  constructor; [exact L|exact M|apply T|apply T| |].
  - intros i Hi. apply I2; lia.
  - intros i Hi. destruct (I1 i ltac:(lia)) as [A [Z|Z]]; lia.
Qed.
(* Finding: the loader panics when the tracks are not stored in ascending order *)
Theorem C55_descending_refuted : forall rnd d file, 26 <= length file -> map (byte_at file) (seq 0 8) = [0x48; 0x58; 0x43; 0x50; 0x49; 0x43; 0x46; 0x45]%N ->
  (forall i, i < hfe_count file -> hfe_entry file i + 4 <= length file /\ Nat.even (hfe_len file i) = true) ->
  2 <= hfe_count file -> hfe_pos file 1 < hfe_pos file 0 -> hfe_load_image rnd d file = Panic.
Proof.
  intros rnd d file L M T Hn Hp. rewrite hfe_load_eq by assumption. rewrite hfe_index_ok by exact T. cbn [obind].
  destruct (hfe_count file) as [|[|n]] eqn:En; try lia. cbn [seq map hfe_tracks]. destruct (index_at file 0) as [o z] eqn:E0. destruct (index_at file 1) as [o1 z1] eqn:E1.
  replace (o1 * 512 <? o * 512)%N with true; [reflexivity|]. symmetry. apply N.ltb_lt. unfold index_at in E0, E1. injection E0 as <- _. injection E1 as <- _. unfold hfe_pos in Hp. lia.
Qed.
(* Finding: the end of side 1 is taken from the wrong place when the length is not a multiple of 512 *)
Definition demo_hfe (len1 len2 : N) (count : N) : list N :=
  [0x48; 0x58; 0x43; 0x50; 0x49; 0x43; 0x46; 0x45; 0; count; 2; 0; 0xFA; 0; 0x2C; 1; 7; 1; 1; 0; 0xFF; 0xFF; 0xFF; 0xFF; 0xFF; 0xFF]%N ++ repeat 0%N 486 ++
  [2; 0; len1; len2]%N ++ repeat 0%N 508 ++ repeat 0x01%N 256 ++ repeat 0x02%N 256.
Lemma demo_hfe_file : hfe_file (demo_hfe 4 0 1).
Proof.
  constructor.
  - apply Nat.leb_le. vm_compute. reflexivity.
  - vm_compute. reflexivity.
  - intros i Hi. change (hfe_count (demo_hfe 4 0 1)) with 1 in Hi. assert (i = 0) by lia. subst i. apply Nat.leb_le. vm_compute. reflexivity.
  - intros i Hi. change (hfe_count (demo_hfe 4 0 1)) with 1 in Hi. assert (i = 0) by lia. subst i. vm_compute. reflexivity.
  - intros i Hi. change (hfe_count (demo_hfe 4 0 1)) with 1 in Hi. lia.
  - intros i Hi. change (hfe_count (demo_hfe 4 0 1)) with 1 in Hi. assert (i = 0) by lia. subst i. apply Nat.leb_le. vm_compute. reflexivity.
Qed.
Lemma demo_hfe_ok : bytes_ok (demo_hfe 4 0 1) = true. Proof. vm_compute. reflexivity. Qed.
Lemma demo_hfe_scans rnd : forall i h, i < hfe_count (demo_hfe 4 0 1) -> h < hfe_heads (demo_hfe 4 0 1) -> exists ch t, bt_new (rnd_bit rnd) ch (hfe_bytes (demo_hfe 4 0 1) i h) None None false = Ok t.
Proof.
  intros i h Hi Hh. change (hfe_count (demo_hfe 4 0 1)) with 1 in Hi. change (hfe_heads (demo_hfe 4 0 1)) with 2 in Hh. assert (i = 0) by lia. subst i. exists (mkCh 0 0).
  apply two in Hh as [-> | ->].
  - assert (E : hfe_bytes (demo_hfe 4 0 1) 0 0 = [0x80; 0x80]%N) by (vm_compute; reflexivity). rewrite E. eexists. reflexivity.
  - assert (E : hfe_bytes (demo_hfe 4 0 1) 0 1 = [0x80; 0x80]%N) by (vm_compute; reflexivity). rewrite E. eexists. reflexivity.
Qed.
Theorem C55_last_block_refuted : exists file, bytes_ok file = true /\ hfe_file file /\ hfe_sides file = 2%N /\
  forall rnd, exists d' s' t, hfe_load_image rnd di_default file = Ok d' /\ shows d' s' /\
    nth_error (snd s') 0 = Some (TBit t) /\ cells t <> hfe_cells file 0 1 /\ cells t = hfe_cells file 0 0.
Proof.
  exists (demo_hfe 4 0 1). split; [exact demo_hfe_ok|]. split; [exact demo_hfe_file|]. split; [vm_compute; reflexivity|]. intros rnd.
  destruct (C55_load rnd _ demo_hfe_ok demo_hfe_file (demo_hfe_scans rnd)) as (d' & s' & A & _ & B & _ & _ & _ & C).
  destruct (C 0 1) as (t & T & _ & H); [change (hfe_count (demo_hfe 4 0 1)) with 1; lia|change (hfe_heads (demo_hfe 4 0 1)) with 2; lia|].
  exists d', s', t. split; [exact A|]. split; [exact B|]. split; [exact T|]. rewrite H. split; [vm_compute; discriminate|vm_compute; reflexivity].
Qed.
Example C55_demo : forall rnd, exists d' s' t, hfe_load_image rnd di_default (demo_hfe 4 0 1) = Ok d' /\ shows d' s' /\
    nth_error (fst s') 0 = Some (TBit t) /\ cells t = flat_map byte_bits [0x80; 0x80]%N.
Proof.
  intros rnd. destruct (C55_load rnd _ demo_hfe_ok demo_hfe_file (demo_hfe_scans rnd)) as (d' & s' & A & _ & B & _ & _ & _ & C).
  destruct (C 0 0) as (t & T & _ & H); [change (hfe_count (demo_hfe 4 0 1)) with 1; lia|change (hfe_heads (demo_hfe 4 0 1)) with 2; lia|].
  exists d', s', t. split; [exact A|]. split; [exact B|]. split; [exact T|]. rewrite H. vm_compute. reflexivity.
Qed.

Print Assumptions C55_load.
Print Assumptions C55_cells.
Print Assumptions C55_accepted.
Print Assumptions C55_descending_refuted.
Print Assumptions C55_last_block_refuted.
