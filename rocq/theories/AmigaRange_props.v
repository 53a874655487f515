(* AmigaRange_props.v - C74: which cells of an Amiga track belong to sector data. *)
From Verif Require Import Base Base_lemmas Chs_model BitRing_model BitRing_proofs RangeCheck_model RangeCheck_proofs Mfm_model Mfm_spec Mfm_proofs Codec_lemmas Codec_props
  Types_model System34_model BitStream_model Amiga_model Amiga_spec Amiga_proofs Amiga2_proofs Amiga3_proofs Amiga4_proofs Amiga5_proofs Amiga_props Bs_more_proofs BitStream2_props Total_spec Total_proofs Total_props BitStream_spec.
From Coq Require Import Lia.

Lemma any_ranges rnd ch data weak ct detect pref t : any_new rnd ch data weak ct detect pref = Ok (TkAmiga t) ->
  am_data_ranges (at_items t) <> [] -> exists m, at_data t = set_data_ranges m (am_data_ranges (at_items t)).
Proof.
  intros H Hn. unfold any_new in H. destruct (new_stream data weak ct detect) as [m| |]; cbn [obind] in H; try discriminate.
  assert (G : forall s k, try_schema rnd ch m s = Ok (Some k) -> k = TkAmiga t -> exists m, at_data t = set_data_ranges m (am_data_ranges (at_items t))).
  { intros [|] k E ->; unfold try_schema in E.
    - destruct (scan_markers m) as [L| |]; cbn [obind] in E; try discriminate. destruct L as [|x L]; try discriminate.
      destruct (create_clock_map _ _) as [cm| |]; cbn [obind] in E; try discriminate. destruct (scan_metadata _ _ _) as [[items m']| |]; cbn [obind] in E; discriminate.
    - destruct (am_scan_markers m) as [L| |]; cbn [obind] in E; try discriminate. destruct L as [|x L]; try discriminate.
      destruct (am_create_clock_map _ _) as [cm| |]; cbn [obind] in E; try discriminate. destruct (am_scan_for_elements _ _ _) as [items| |]; cbn [obind] in E; try discriminate.
      injection E as E. rewrite <- E in Hn |- *. cbn [at_items at_data] in Hn |- *. destruct (am_data_ranges items) as [|r rs]; [contradiction|]. eauto. }
  assert (T : forall l, try_schemas rnd ch m l = Ok (TkAmiga t) -> exists m, at_data t = set_data_ranges m (am_data_ranges (at_items t))).
  { induction l as [|s l IH]; cbn [try_schemas]; [discriminate|]. destruct (try_schema rnd ch m s) as [[k|]| |] eqn:E; cbn [obind]; try discriminate; [|exact IH].
    intros X. injection X as X. exact (G s k E X). }
  exact (T _ H).
Qed.
Lemma ranges_items W lead : forall ss i, am_data_ranges (items_from W lead i ss) =
  map (fun k => (mark_at W lead k + 16 * 26, mark_at W lead k + 16 * (26 + 4 + 512))) (seq i (length ss)).
Proof.
  induction ss as [|s t IH]; intros i; [reflexivity|]. rewrite items_cons. unfold am_data_ranges in *. rewrite flat_map_app, IH. cbn [length seq map].
  unfold sector_elems. cbn [flat_map ai_elem ai_start ai_end app]. unfold mfm_offset. rewrite (Nat.mul_comm 16 26), (Nat.mul_comm 16 (26 + 4 + 512)). reflexivity.
Qed.
Lemma sectors_len W : forall ss prev, wide W ss -> length (sectors_cells prev ss) = 2 * (W * length ss).
Proof.
  induction ss as [|s t IH]; intros prev H; cbn [sectors_cells length]; [lia|]. pose proof (Forall_inv H) as Hs. pose proof (Forall_inv_tail H) as Ht. cbv beta in Hs.
  rewrite app_length, (IH _ Ht). rewrite sector_cells_x, mfmx_length, Hs. rewrite Nat.mul_succ_r. lia.
Qed.
(* On a loaded track the cells that count as data are exactly those of the data checksums and data of the sectors recorded, each with the one
   cell that follows it; a sector that ends where the track ends is left out unless `wrapping` is asked for. *)
Theorem C74_ranges : forall rnd ch data ct detect pref lead ss tail, ss <> [] -> Forall recorded ss ->
  input_cells data ct = amiga_track lead ss tail ->
  exists t, any_new rnd ch data None ct detect pref = Ok (TkAmiga t) /\
    forall v, let here wrapping := exists before s after, ss = before ++ s :: after /\
        let start := length (mfm false lead ++ sectors_cells (last lead false) before) in
        start + 16 * 28 <= v <= start + 16 * (28 + 4 + 512) /\ (wrapping = true \/ start + 16 * (28 + 4 + 512) < length (amiga_track lead ss tail)) in
      (is_data (at_data t) v true = true <-> here true) /\ (is_data (at_data t) v false = true <-> here false).
Proof.
  intros rnd ch data ct dw pref lead ss tail Hn Hr Hi. destruct (recorded_wide ss Hr) as (W & HW & HW64).
  destruct (am_load W lead ss tail HW HW64 Hr rnd ch data ct dw pref Hn Hi) as (m & E & D & _). eexists. split; [exact E|]. intros v.
  pose proof (any_ranges _ _ _ _ _ _ _ _ E) as R. cbn [at_items at_data] in R |- *. rewrite ranges_items in R.
  destruct R as [m1 R]. { destruct ss; [contradiction|discriminate]. }
  assert (Lm : mfm_len m1 = length (amiga_track lead ss tail)) by (rewrite <- D, R; reflexivity).
  assert (Hp : forall before s after, ss = before ++ s :: after -> length (mfm false lead ++ sectors_cells (last lead false) before) + 32 = mark_at W lead (length before)).
  { intros b s a ->. apply Forall_app in HW as [HW _]. rewrite app_length, (sectors_len W) by exact HW. rewrite mfm_length. unfold mark_at. lia. }
  remember (4 + 512) as K eqn:HK. assert (HKa : 26 + 4 + 512 = 26 + K) by (rewrite HK; reflexivity). assert (HKb : 28 + 4 + 512 = 28 + K) by (rewrite HK; reflexivity).
  rewrite HKa in R. rewrite HKb. clear HKa HKb HK.
  set (rs := map _ _) in R. assert (Hrs : Forall (fun r => fst r <= snd r) rs).
  { unfold rs. apply Forall_forall. intros r Ir. apply in_map_iff in Ir as (k & <- & _). cbn [fst snd]. lia. }
  destruct (C14_is_data m1 rs v Hrs) as [A B]. rewrite R. rewrite A, B, Lm.
  assert (I1 : forall b s a, ss = b ++ s :: a -> In (mark_at W lead (length b) + 16 * 26, mark_at W lead (length b) + 16 * (26 + K)) rs).
  { intros b s a Es. unfold rs. apply in_map_iff. exists (length b). split; [reflexivity|]. apply in_seq. rewrite Es, app_length. cbn [length]. lia. }
  assert (I2 : forall r, In r rs -> exists b s a, ss = b ++ s :: a /\ r = (mark_at W lead (length b) + 16 * 26, mark_at W lead (length b) + 16 * (26 + K))).
  { intros r Ir. unfold rs in Ir. apply in_map_iff in Ir as (k & <- & Ik). apply in_seq in Ik. destruct (nth_error ss k) as [s|] eqn:Ek; [|apply nth_error_None in Ek; lia].
    apply nth_error_split in Ek as (b & a & Es & Lb). exists b, s, a. split; [exact Es|]. rewrite Lb. reflexivity. }
  clearbody rs. split; (split; [intros (r & Ir & Hv); destruct (I2 r Ir) as (b & s & a & Es & ->); exists b, s, a; split; [exact Es|]; specialize (Hp b s a Es); cbn [fst snd] in Hv
                               |intros (b & s & a & Es & Hv & Hc); eexists; split; [exact (I1 b s a Es)|]; specialize (Hp b s a Es); cbn [fst snd]]).
  - cbv zeta. split; [lia|left; reflexivity].
  - lia.
  - cbv zeta. split; [lia|right; lia].
  - destruct Hc as [Hc|Hc]; [discriminate|]. lia.
Qed.
Lemma pref_len : exists K, K = 512 /\ forall ss lead prev, Forall recorded ss -> length (mfm false lead ++ sectors_cells prev ss) = 2 * length lead + 16 * (28 + 4 + K) * length ss.
Proof.
  assert (exists K, K = 512) as [K HK] by (eexists; reflexivity). exists K. split; [exact HK|]. intros ss lead prev H.
  assert (HW : wide (32 + (160 + 64 + 8 * K)) ss).
  { unfold wide. eapply Forall_impl; [|exact H]. cbv beta. intros x Hx. rewrite sec_ann_length, sector_bits_length by exact Hx. destruct Hx as (_ & _ & _ & _ & _ & -> & _). rewrite HK. reflexivity. }
  rewrite app_length, (sectors_len _ _ _ HW), mfm_length. generalize (length ss). clear. intros n. f_equal. rewrite Nat.mul_assoc. f_equal. lia.
Qed.
(* A track that ends with its last sector: no cell of that sector's data counts as data. *)
Theorem C74_last_refuted : forall rnd ch data ct detect pref lead ss s, Forall recorded (ss ++ [s]) ->
  input_cells data ct = amiga_track lead (ss ++ [s]) [] ->
  exists t, any_new rnd ch data None ct detect pref = Ok (TkAmiga t) /\
    let start := length (mfm false lead ++ sectors_cells (last lead false) ss) in
    forall v, start + 16 * 28 <= v < length (amiga_track lead (ss ++ [s]) []) -> is_data (at_data t) v false = false /\ is_data (at_data t) v true = true.
Proof.
  intros rnd ch data ct dw pref lead ss s Hr Hi. assert (Hn : ss ++ [s] <> []) by (destruct ss; discriminate).
  destruct (C74_ranges rnd ch data ct dw pref lead (ss ++ [s]) [] Hn Hr Hi) as (t & E & R). exists t. split; [exact E|]. intros start v Hv.
  destruct pref_len as (K & HK & P). specialize (R v). cbv zeta in R. rewrite <- HK in R.
  assert (Lt : length (amiga_track lead (ss ++ [s]) []) = start + 16 * (28 + 4 + K)).
  { unfold amiga_track. rewrite (app_nil_r : forall l : list bool, l ++ mfm _ [] = l) || cbn [mfm]. 
    change (mfm (last_bit (last lead false) (ss ++ [s])) []) with (@nil bool). rewrite app_nil_r.
    unfold start. rewrite (P _ _ _ Hr), (P ss lead _) by (apply Forall_app in Hr; tauto). rewrite app_length. cbn [length]. rewrite Nat.mul_add_distr_l, Nat.mul_1_r. lia. }
  rewrite Lt in *. destruct R as [A B]. split.
  - apply not_true_is_false. intros X. apply B in X as (b & s' & a & Es & Hb & [X|X]); [discriminate|]. clear A B HK.
    assert (Hlen : length b + 1 + length a = length ss + 1) by (apply (f_equal (@length _)) in Es; rewrite !app_length in Es; cbn [length] in Es; lia).
    assert (Hrb : Forall recorded b) by (rewrite Es in Hr; apply Forall_app in Hr; tauto).
    assert (Hrs : Forall recorded ss) by (apply Forall_app in Hr; tauto).
    unfold start in *. rewrite (P ss) in X, Hv by exact Hrs. rewrite (P b) in X, Hb by exact Hrb.
    destruct (Nat.eq_dec (length b) (length ss)) as [Q|Q]; [rewrite Q in X; lia|].
    assert (M : length b + 1 <= length ss) by lia. apply (Nat.mul_le_mono_l _ _ (16 * (28 + 4 + K))) in M. rewrite Nat.mul_add_distr_l, Nat.mul_1_r in M. lia.
  - apply A. exists ss, s, []. split; [reflexivity|]. split; [unfold start in Hv |- *; lia|left; reflexivity].
Qed.
Example C74_ranges_ex : exists data ct, input_cells data ct = amiga_track (repeat false 9) ([good0] ++ [bad1]) [] /\ Forall recorded ([good0] ++ [bad1]).
Proof.
  exists (to_bytes (amiga_track (repeat false 9) ([good0] ++ [bad1]) [])), (Some (length (amiga_track (repeat false 9) ([good0] ++ [bad1]) []))).
  split; [apply cells_input|]. assert (L16 : length (repeat 0%N 16) = 16) by reflexivity. constructor; [|constructor; [|constructor]].
  - exact (ex_recorded 0 (repeat 0%N 16) (header_sum (ex_sector 0 (repeat 0%N 16) 0 0)) (data_sum (ex_sector 0 (repeat 0%N 16) 0 0)) eq_refl L16 eq_refl (checksum_lt _) (checksum_lt _)).
  - exact (ex_recorded 1 (repeat 0%N 16) (header_sum (ex_sector 1 (repeat 0%N 16) 0 0)) 0xFFFFFFFF eq_refl L16 eq_refl (checksum_lt _) eq_refl).
Qed.

Print Assumptions C74_ranges.
Print Assumptions C74_last_refuted.
