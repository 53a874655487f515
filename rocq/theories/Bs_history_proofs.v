(* Bs_history_proofs.v - histories of writes on a formatted bitstream track. *)
From Verif Require Import Base Base_lemmas Chs_model Chs_proofs BitRing_model BitRing_proofs Mfm_model Mfm_spec Mfm_proofs Marker_proofs Codec_lemmas
  Crc_model Crc16_proofs Types_model System34_model System34_spec Stream_proofs S34_layout_proofs S34_format_proofs S34_scan_proofs S34_clock_proofs
  S34_meta_proofs BitStream_model TreeMap_proofs MetaSector_spec MetaSector_proofs S34_track_proofs S34_ops_proofs S34_write_proofs
  BitStream_spec Bs_general_proofs.
From Coq Require Import Lia.

Lemma agrees_iff q id : query_matches q id = true <-> agrees q id.
Proof. rewrite query_matches_iff. unfold agrees. tauto. Qed.

(* ---- positions depend only on ids ---- *)
Definition blanks (ids : list DiskChsn) : list fsector := map (fun i => mkFS i (repeat 0%N (n_size i))) ids.
Lemma slots_ids std gap3 : forall ss off, Forall sector_ok ss ->
  map fst (slots std gap3 off ss) = map fst (slots std gap3 off (blanks (map fs_id ss))).
Proof.
  induction ss as [|s t IH]; intros off H; [reflexivity|]. inversion H as [|? ? Hs Ht]; subst. cbn [slots map blanks fst]. f_equal.
  rewrite (IH _ Ht). unfold sector_len. cbn [fs_data]. rewrite repeat_length. destruct Hs as [-> _]. reflexivity.
Qed.
Lemma header_pos_ss std gap3 ss : Forall sector_ok ss ->
  header_pos std gap3 (map fs_id ss) = map (fun x => 16 * idam_at (fst x)) (track_slots std gap3 ss).
Proof.
  intros H. unfold header_pos. fold (blanks (map fs_id ss)). unfold track_slots, idam_at.
  rewrite <- (map_map fst (fun o => 16 * (o + 12))). rewrite <- slots_ids by auto. rewrite map_map. reflexivity.
Qed.
Lemma slot_of std gap3 ss i s : nth_error ss i = Some s -> exists o, nth_error (track_slots std gap3 ss) i = Some (o, s).
Proof.
  intros H. unfold track_slots. pose proof (slots_snd std gap3 (length (preamble std)) ss) as E.
  pose proof (f_equal (fun l => nth_error l i) E) as Q. cbv beta in Q. rewrite H, nth_error_map in Q.
  destruct (nth_error (slots std gap3 (length (preamble std)) ss) i) as [[o s']|]; [|discriminate]. cbn in Q. injection Q as ->. eauto.
Qed.
Lemma slot_sec std gap3 ss i o s : nth_error (track_slots std gap3 ss) i = Some (o, s) -> nth_error ss i = Some s.
Proof.
  intros H. unfold track_slots in H. pose proof (slots_snd std gap3 (length (preamble std)) ss) as E.
  rewrite <- E, nth_error_map, H. reflexivity.
Qed.

Lemma lookup_first std gap3 ss q off k : Forall sector_ok ss ->
  first_from (header_pos std gap3 (map fs_id ss)) (map fs_id ss) q off k ->
  exists o s, nth_error ss k = Some s /\ lookup q off (track_slots std gap3 ss) = Some (k, (o, s)).
Proof.
  intros Hok [(id & p & Hid & Hp & Hle & Ha) Hmin]. rewrite header_pos_ss in * by auto.
  rewrite nth_error_map in Hid, Hp. destruct (nth_error ss k) as [s|] eqn:Es; [|discriminate]. injection Hid as <-.
  destruct (slot_of std gap3 ss k s Es) as [o Ho]. rewrite Ho in Hp. assert (p = 16 * idam_at o) by (cbn [option_map fst] in Hp; congruence); subst p; clear Hp.
  exists o, s. split; [reflexivity|].
  assert (G : forall sl k, nth_error sl k = Some (o, s) -> (forall j y, j < k -> nth_error sl j = Some y -> eligible q off y = false) ->
     lookup q off sl = Some (k, (o, s))).
  { clear - Ha Hle. induction sl as [|x sl IH]; intros k Hk Hm; [destruct k; discriminate|]. cbn [lookup].
    destruct k as [|k].
    - injection Hk as ->. unfold eligible. cbn [fst snd]. destruct (Nat.leb_spec off (16 * idam_at o)); [|lia].
      apply agrees_iff in Ha. rewrite Ha. reflexivity.
    - rewrite (Hm 0 x) by (auto; lia). rewrite (IH k); auto. intros j y Hj Hy. apply (Hm (S j)); [lia|exact Hy]. }
  apply G; auto. intros j [o' s'] Hj Hy. unfold eligible. cbn [fst snd].
  destruct (Nat.leb_spec off (16 * idam_at o')); [|reflexivity]. cbn [andb].
  apply not_true_iff_false. intros Hq. apply agrees_iff in Hq. apply (Hmin j (fs_id s') (16 * idam_at o')); auto.
  - rewrite nth_error_map, (slot_sec _ _ _ _ _ _ Hy). reflexivity.
  - rewrite nth_error_map, Hy. reflexivity.
Qed.
Lemma lookup_first_conv std gap3 ss q off k o s : Forall sector_ok ss ->
  lookup q off (track_slots std gap3 ss) = Some (k, (o, s)) ->
  first_from (header_pos std gap3 (map fs_id ss)) (map fs_id ss) q off k.
Proof.
  intros Hok H. apply lookup_some in H as (Hk & He & Hm). unfold eligible in He. cbn [fst snd] in He. apply andb_prop in He as [H1 H2].
  apply Nat.leb_le in H1. apply agrees_iff in H2. split.
  - exists (fs_id s), (16 * idam_at o). rewrite header_pos_ss, !nth_error_map, (slot_sec _ _ _ _ _ _ Hk), Hk by auto. auto.
  - intros j id p Hj Hid Hp Hle Ha. rewrite header_pos_ss in Hp by auto. rewrite nth_error_map in Hid, Hp.
    destruct (nth_error (track_slots std gap3 ss) j) as [[o' s']|] eqn:Ej; [|discriminate]. assert (p = 16 * idam_at o') by (cbn [option_map fst] in Hp; congruence); subst p; clear Hp.
    rewrite (slot_sec _ _ _ _ _ _ Ej) in Hid. injection Hid as <-. specialize (Hm j _ Hj Ej). unfold eligible in Hm. cbn [fst snd] in *.
    apply Nat.leb_le in Hle. rewrite Hle in Hm. apply agrees_iff in Ha. rewrite Ha in Hm. discriminate.
Qed.
Lemma lookup_none_from std gap3 ss q off : Forall sector_ok ss ->
  (lookup q off (track_slots std gap3 ss) = None <-> none_from (header_pos std gap3 (map fs_id ss)) (map fs_id ss) q off).
Proof.
  intros Hok. split.
  - intros H j id p Hid Hp Hle Ha. pose proof (lookup_none _ _ _ H) as N0. rewrite header_pos_ss in Hp by auto. rewrite nth_error_map in Hid, Hp.
    destruct (nth_error (track_slots std gap3 ss) j) as [[o s]|] eqn:Ej; [|discriminate]. assert (p = 16 * idam_at o) by (cbn [option_map fst] in Hp; congruence); subst p; clear Hp.
    rewrite (slot_sec _ _ _ _ _ _ Ej) in Hid. injection Hid as <-. specialize (N0 _ (nth_error_In _ _ Ej)). unfold eligible in N0. cbn [fst snd] in *.
    apply Nat.leb_le in Hle. rewrite Hle in N0. apply agrees_iff in Ha. rewrite Ha in N0. discriminate.
  - intros H. destruct (lookup q off (track_slots std gap3 ss)) as [[k [o s]]|] eqn:E; [|reflexivity]. exfalso.
    apply lookup_first_conv in E; auto. destruct E as [(id & p & A & B & C & D) _]. exact (H k id p A B C D).
Qed.
Lemma first_from_unique pos ids q off a b : first_from pos ids q off a -> first_from pos ids q off b -> a = b.
Proof.
  intros [(i1 & p1 & A1 & B1 & C1 & D1) M1] [(i2 & p2 & A2 & B2 & C2 & D2) M2].
  destruct (Nat.lt_trichotomy a b) as [H|[H|H]]; auto; exfalso.
  - exact (M2 a i1 p1 H A1 B1 C1 D1). - exact (M1 b i2 p2 H A2 B2 C2 D2).
Qed.

(* ---- one request, then a history ---- *)
Definition same_frame (a b : BitTrack) : Prop :=
  bt_meta b = bt_meta a /\ bt_schema b = bt_schema a /\ bt_ch b = bt_ch a.
Lemma map_fs_id_upd ss i s d : nth_error ss i = Some s -> map fs_id (upd ss i (mkFS (fs_id s) d)) = map fs_id ss.
Proof. intros H. rewrite map_upd. cbn [fs_id]. apply upd_same. rewrite nth_error_map, H. reflexivity. Qed.

Lemma step_good std gap3 ss t B w : good std gap3 ss t B -> bt_schema t = true -> bytes_ok (b_data w) = true ->
  exists t' ss' B', bs_step t w = Ok t' /\ good std gap3 ss' t' B' /\ same_frame t t' /\ map fs_id ss' = map fs_id ss /\
    (forall i s, nth_error ss i = Some s -> takes_effect std gap3 (map fs_id ss) i w -> nth_error ss' i = Some (mkFS (fs_id s) (b_data w))) /\
    (forall i, ~ takes_effect std gap3 (map fs_id ss) i w -> nth_error ss' i = nth_error ss i).
Proof.
  intros G Hs Hb. pose proof (g_ok _ _ _ _ _ G) as Hok. unfold bs_step.
  destruct (lookup (b_query w) (off_of (b_offset w)) (track_slots std gap3 ss)) as [[k [o s]]|] eqn:El.
  - pose proof (lookup_first_conv _ _ _ _ _ _ _ _ Hok El) as FF.
    pose proof (slot_sec _ _ _ _ _ _ (proj1 (lookup_some _ _ _ _ _ El))) as Hk.
    assert (Hoks : sector_ok s) by (rewrite Forall_forall in Hok; apply Hok; eapply nth_error_In; eauto).
    destruct (b_deleted w) eqn:Ed; [|destruct (Nat.eq_dec (length (b_data w)) (length (fs_data s))) as [Hl|Hl]].
    + rewrite (write_rejected std gap3 ss t B G _ _ _ _ _ _ _ _ _ Hs El) by auto. exists t, ss, B. split; [reflexivity|]. split; [auto|].
      split; [repeat split|]. split; [reflexivity|]. split; [|reflexivity].
      intros i x _ (_ & D & _). congruence.
    + destruct (write_found std gap3 ss t B G (b_query w) (b_offset w) k o s (b_data w) (b_scope w) (b_debug w) Hs El Hl Hb)
        as (t' & Ew & G' & _ & E1 & E2 & E3 & _). rewrite Ew.
      exists t', (upd ss k (mkFS (fs_id s) (b_data w))), (write_bytes B (dam_at std o) (b_data w)). split; [reflexivity|]. split; [exact G'|].
      split; [repeat split; congruence|]. split; [apply map_fs_id_upd; auto|]. split.
      * intros i x Hi (N1 & _). assert (i = k) by (eapply first_from_unique; eauto). subst i. rewrite Hk in Hi. injection Hi as <-.
        apply nth_error_upd_same. apply nth_error_Some. congruence.
      * intros i Hi. destruct (Nat.eq_dec i k) as [->|Hne]; [|apply nth_error_upd_other; auto]. exfalso. apply Hi.
        split; [exact FF|]. split; [auto|]. exists (fs_id s). rewrite nth_error_map, Hk. split; [reflexivity|]. rewrite Hl. apply Hoks.
    + rewrite (write_rejected std gap3 ss t B G _ _ _ _ _ _ _ _ _ Hs El) by auto. exists t, ss, B. split; [reflexivity|]. split; [auto|].
      split; [repeat split|]. split; [reflexivity|]. split; [|reflexivity].
      intros i x Hi (N1 & _ & id & Hid & HL). assert (i = k) by (eapply first_from_unique; eauto). subst i.
      exfalso. apply Hl. rewrite HL. rewrite nth_error_map, Hk in Hid. injection Hid as <-. symmetry. apply Hoks.
  - rewrite (write_missing std gap3 ss t B G _ _ _ _ _ _ Hs El). exists t, ss, B. split; [reflexivity|]. split; [auto|].
    split; [repeat split|]. split; [reflexivity|]. split; [|reflexivity].
    intros i x Hi (N1 & _). exfalso. apply lookup_first in N1 as (o & s & _ & E); auto. congruence.
Qed.

Lemma history_good std gap3 : forall h ss t B, good std gap3 ss t B -> bt_schema t = true -> Forall (fun w => bytes_ok (b_data w) = true) h ->
  exists t' ss' B', run_requests t h = Ok t' /\ good std gap3 ss' t' B' /\ same_frame t t' /\ map fs_id ss' = map fs_id ss /\
    forall i s, nth_error ss i = Some s -> exists s', nth_error ss' i = Some s' /\
      (forall w, last_req (takes_effect std gap3 (map fs_id ss) i) h w -> fs_data s' = b_data w) /\
      (Forall (fun w => ~ takes_effect std gap3 (map fs_id ss) i w) h -> s' = s).
Proof.
  induction h as [|w h IH] using rev_ind; intros ss t B G Hs HF.
  - exists t, ss, B. split; [reflexivity|]. split; [auto|]. split; [repeat split|]. split; [reflexivity|].
    intros i s Hi. exists s. split; [auto|]. split; [|auto]. intros w (pre & post & E & _). destruct pre; discriminate.
  - apply Forall_app in HF as [HF Hw]. inversion Hw as [|? ? Hb _]; subst.
    destruct (IH ss t B G Hs HF) as (t1 & s1 & B1 & E1 & G1 & F1 & M1 & H1).
    destruct F1 as (F1a & F1b & F1c).
    destruct (step_good std gap3 s1 t1 B1 w G1) as (t2 & s2 & B2 & E2 & G2 & F2 & M2 & H2 & H3); [congruence|auto|].
    exists t2, s2, B2. split; [unfold run_requests in *; rewrite ofold_app, E1; cbn [obind ofold]; rewrite E2; reflexivity|].
    split; [exact G2|]. split; [destruct F2 as (? & ? & ?); repeat split; congruence|]. split; [congruence|].
    rewrite M1 in H2, H3. intros i s Hi. destruct (H1 i s Hi) as (x & Hx & L & N0).
    assert (Hdec : takes_effect std gap3 (map fs_id ss) i w \/ ~ takes_effect std gap3 (map fs_id ss) i w).
    { unfold takes_effect. pose proof (g_ok _ _ _ _ _ G) as Hok.
      destruct (lookup (b_query w) (off_of (b_offset w)) (track_slots std gap3 ss)) as [[k [o y]]|] eqn:El.
      - pose proof (lookup_first_conv _ _ _ _ _ _ _ _ Hok El) as FF.
        destruct (Nat.eq_dec i k) as [->|Hne].
        + destruct (b_deleted w) eqn:Ed; [right; intros (_ & ? & _); discriminate|].
          destruct (Nat.eq_dec (length (b_data w)) (n_size (fs_id s))) as [Hl|Hl].
          * left. split; [exact FF|]. split; [auto|]. exists (fs_id s). rewrite nth_error_map, Hi. auto.
          * right. intros (_ & _ & id & Hid & ?). rewrite nth_error_map, Hi in Hid. injection Hid as <-. contradiction.
        + right. intros (N1 & _). apply Hne. eapply first_from_unique; eauto.
      - right. intros (N1 & _). apply lookup_first in N1 as (? & ? & _ & E); auto. congruence. }
    destruct Hdec as [T|T].
    + exists (mkFS (fs_id x) (b_data w)). split; [apply H2; auto|]. split.
      * intros w' (pre & post & E & P & Fp). destruct post as [|y post] using rev_ind.
        -- apply app_inj_tail in E as [_ <-]. reflexivity.
        -- rewrite app_comm_cons, app_assoc in E. apply app_inj_tail in E as [_ <-]. apply Forall_app in Fp as [_ Fp].
           inversion Fp; subst. contradiction.
      * intros Fa. apply Forall_app in Fa as [_ Fa]. inversion Fa; subst. contradiction.
    + exists x. split; [rewrite H3 by auto; exact Hx|]. split.
      * intros w' (pre & post & E & P & Fp). destruct post as [|y post] using rev_ind.
        -- apply app_inj_tail in E as [_ <-]. contradiction.
        -- rewrite app_comm_cons, app_assoc in E. apply app_inj_tail in E as [-> <-]. apply Forall_app in Fp as [Fp _].
           apply L. exists pre, post. auto.
      * intros Fa. apply Forall_app in Fa as [Fa _]. auto.
Qed.

(* ---- formatting a created track ---- *)
Lemma byte_id_ok i : byte_id i -> id_ok i.
Proof. intros (A & B & C & D). unfold id_ok. apply bytes_ok_Forall. repeat constructor; auto. Qed.
Lemma created_formattable t : created t -> mfm_len (bt_data t) <> 0 -> formattable t /\ bt_schema t = true.
Proof.
  intros (rnd & ch & data & ct & t0 & E & ->) Hl. split; [|reflexivity].
  assert (F : formattable t0) by (eapply new_formattable; eauto). destruct F. constructor; auto.
Qed.
Lemma format_ok_good rnd t std ids pat gap3 : format_ok t std ids pat gap3 ->
  exists t', bt_format rnd t std ids pat gap3 = Ok t' /\ good std gap3 (filled pat 0 ids) t' (final_bytes std gap3 (track_size t) (filled pat 0 ids)) /\
     bt_schema t' = true /\ bt_ch t' = bt_ch t /\
     mfm_data (bt_data t') = write_marks (mfm false (bits_of (track_layout std gap3 (track_size t) (filled pat 0 ids)))) (track_marks std gap3 (filled pat 0 ids)).
Proof.
  intros [Hc [Hp1 Hp2] Hi Hf].
  assert (Hl : mfm_len (bt_data t) <> 0).
  { intros E. destruct Hf as [Hf _]. unfold track_size in Hf. change (length (mfm_data (bt_data t))) with (mfm_len (bt_data t)) in Hf.
    rewrite E in Hf. vm_compute in Hf. lia. }
  destruct (created_formattable t Hc Hl) as [F S].
  destruct (format_good rnd t std ids pat gap3 F Hp1 Hp2) as (t' & E & G & S' & C' & D' & _); auto.
  { apply Forall_forall. intros x Hx. apply byte_id_ok. rewrite Forall_forall in Hi. auto. }
  exists t'. repeat (split; [auto; congruence|]). exact D'.
Qed.
