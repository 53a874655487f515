(* Raw2_proofs.v - post-load processing and saving of raw images. *)
From Coq Require Import List.
From Verif Require Import Base Base_lemmas Chs_model Chs_spec Chs_proofs BitRing_model Mfm_model Marker_proofs Types_model System34_model System34_spec MetaSector_model MetaSector_spec
  BitStream_model BitStream_spec MetaSector_proofs Stream_proofs S34_layout_proofs S34_format_proofs S34_meta_proofs S34_track_proofs S34_ops_proofs Bs_general_proofs Bs_history_proofs
  DiskImage_model DiskImage_spec DiskImage_proofs DiskImage2_proofs TreeMap_proofs Format_model Format_spec Format_proofs Format2_proofs Format3_proofs
  SectorView_model SectorView_spec SectorView_proofs SectorView2_proofs Raw_model Raw_spec Raw_proofs.
Import ListNotations.

(* ---- the cells tell cylinders apart ---- *)
Lemma pack_inj : forall a b, length a = length b -> pack a = pack b -> a = b.
Proof.
  intros a b Hl E. apply list_eq_nth_error. intros k. destruct (Nat.lt_ge_cases k (length a)) as [Hk|Hk].
  2:{ rewrite (proj2 (nth_error_None a k)), (proj2 (nth_error_None b k)) by lia. reflexivity. }
  rewrite (nth_error_nth' a false) by lia. rewrite (nth_error_nth' b false) by lia. f_equal.
  apply (f_equal (fun l => nth_error l (k / 8))) in E. unfold pack in E. rewrite !nth_error_map_seq, <- Hl in E.
  pose proof (Nat.div_mod k 8 ltac:(lia)) as D. pose proof (Nat.mod_upper_bound k 8 ltac:(lia)) as M.
  assert (Hd : k / 8 < (length a + 7) / 8).
  { apply Nat.div_lt_upper_bound; [lia|]. pose proof (Nat.div_mod (length a + 7) 8 ltac:(lia)). pose proof (Nat.mod_upper_bound (length a + 7) 8 ltac:(lia)). lia. }
  destruct (Nat.ltb_spec (k / 8) ((length a + 7) / 8)); [|lia]. apply (f_equal (fun o => match o with Some x => x | None => 0%N end)) in E. cbv beta iota in E. change (0 + k / 8) with (k / 8) in E.
  assert (G : forall l, nth (k mod 8) (map (fun j => nth (8 * (k / 8) + j) l false) (seq 0 8)) false = nth k l false).
  { intros l. transitivity (nth (8 * (k / 8) + k mod 8) l false); [|rewrite <- D; reflexivity]. clear - M. destruct (k mod 8) as [|[|[|[|[|[|[|[|x]]]]]]]]; try reflexivity. lia. }
  rewrite <- (G a), <- (G b). rewrite <- !testbit_bits_val by (rewrite map_length, seq_length; exact M). rewrite !map_length. exact (f_equal (fun v => N.testbit v _) E).
Qed.
Lemma carries_byte : forall l B B' p, carries l B -> carries l B' -> bytes_ok B = true -> bytes_ok B' = true -> p < length B ->
  nth_error B p = nth_error B' p.
Proof.
  intros l B B' p [L C] [L' C'] Hb Hb' Hp. assert (Hl : length B = length B') by lia.
  rewrite (nth_error_nth' B 0%N) by lia. rewrite (nth_error_nth' B' 0%N) by lia. f_equal.
  assert (R : forall X, carries l X -> bytes_ok X = true -> p < length X -> bits_val (map (fun j => dbit l (8 * p + j)) (seq 0 8)) = nth p X 0%N).
  { intros X HX HbX Hpx. rewrite bytes_ok_Forall, Forall_forall in HbX. pose proof (HbX _ (nth_In X 0%N Hpx)) as Hby.
    rewrite <- (bits_val_byte_bits (nth p X 0%N)) by exact Hby. f_equal. unfold byte_bits. cbn [map seq].
    rewrite !(carries_bit l X p _ HX) by lia. reflexivity. }
  rewrite <- (R B), <- (R B'); auto; [split; auto|lia|split; auto].
Qed.
Lemma cells_differ : forall f ch ch' data data' t t', is_pc f -> ibm_track f ch data t -> ibm_track f ch' data' t' ->
  (ch_c ch < 256)%N -> (ch_c ch' < 256)%N -> ch_c ch <> ch_c ch' -> mfm_data (bt_data t) <> mfm_data (bt_data t').
Proof.
  intros f ch ch' data data' t t' Hf (ss & B & G & _ & _ & Hids & _) (ss' & B' & G' & _ & _ & Hids' & _) Hc Hc' Hne E.
  pose proof (g_holds _ _ _ _ _ G) as H. pose proof (g_holds _ _ _ _ _ G') as H'. rewrite <- E in H'.
  destruct (layout_facts f Hf) as (_ & _ & _ & _ & _ & Hs & _).
  assert (Hn : forall x xs ch, map fs_id (x :: xs) = format_ids f ch -> (fs_id x) = mkChsn (mkChs (ch_c ch) (ch_h ch) 1) 2).
  { intros x xs c0 Hx. pose proof (format_ids_nth f c0 0) as Hf0. destruct (Nat.ltb_spec 0 (N.to_nat (l_s (sf_layout f)))); [|lia].
    rewrite <- Hx in Hf0. cbn [map nth_error] in Hf0. injection Hf0 as Hf0. exact Hf0. }
  assert (Hd : forall ss ch, map fs_id ss = format_ids f ch -> ss <> []).
  { intros s0 c0 Hx ->. apply (f_equal (@length _)) in Hx. rewrite format_ids_length in Hx. cbn in Hx. lia. }
  destruct ss as [|x ss]; [exact (Hd _ _ Hids eq_refl)|]. destruct ss' as [|x' ss']; [exact (Hd _ _ Hids' eq_refl)|].
  apply Hn in Hids. apply Hn in Hids'.
  pose proof (h_header _ _ _ _ _ H 0 _ x eq_refl) as A. pose proof (h_header _ _ _ _ _ H' 0 _ x' eq_refl) as A'.
  apply (f_equal (fun l => nth_error l 4)) in A. apply (f_equal (fun l => nth_error l 4)) in A'. rewrite nth_slice_gen in A, A'.
  rewrite Hids in A. rewrite Hids' in A'. unfold header_field, with_crc in A, A'. unfold chsn_c in A, A'. cbn -[N.modulo length preamble] in A, A'.
  rewrite (carries_byte _ B B' _ (h_carries _ _ _ _ _ H) (h_carries _ _ _ _ _ H') (h_bytes _ _ _ _ _ H) (h_bytes _ _ _ _ _ H')) in A.
  - rewrite A in A'. injection A' as A'. rewrite !N.mod_small in A' by assumption. contradiction.
  - apply nth_error_Some. congruence.
Qed.

(* ---- normalisation leaves the image alone ---- *)
Lemma count_pairs_ok : forall f l, (forall p, In p l -> exists b, f p = Ok b) -> exists n, count_pairs f l = Ok n /\ ((forall p, In p l -> f p = Ok false) -> n = 0).
Proof.
  intros f l. unfold count_pairs.
  assert (G : forall l k, (forall p, In p l -> exists b, f p = Ok b) -> exists n, ofold (fun n p => let! b := f p in Ok (if b then S n else n)) l k = Ok n /\ ((forall p, In p l -> f p = Ok false) -> n = k)).
  { induction l0 as [|p l0 IH]; intros k H; cbn [ofold]; [exists k; auto|]. destruct (H p (or_introl eq_refl)) as (b & E). rewrite E. cbn [obind].
    destruct (IH (if b then S k else k) (fun q Hq => H q (or_intror Hq))) as (n & E1 & E2). exists n. split; [exact E1|]. intros Hz.
    rewrite E2 by (intros q Hq; apply Hz; right; exact Hq). rewrite (Hz p (or_introl eq_refl)) in E. injection E as <-. reflexivity. }
  intros H. exact (G l 0 H).
Qed.
Lemma pairs_in : forall {A} n (l : list A) a b, length l <= n -> In (a, b) (pairs l) -> In a l /\ In b l.
Proof.
  intros A. induction n as [|n IH]; intros l a b Hn H; [destruct l; [destruct H|cbn in Hn; lia]|].
  destruct l as [|x [|y l]]; try (destruct H; fail). cbn [pairs] in H. destruct H as [H|H]; [injection H as -> ->; cbn; auto|].
  destruct (IH l a b) as [P Q]; [cbn in Hn; lia|exact H|]. cbn; auto.
Qed.
Lemma normalize_keep : forall hash d s, wf d s -> (forall t, In t (fst s) -> exists n, tk_sector_ct t = Ok n /\ 0 < n) ->
  (length (fst s) = 40 \/ (length (fst s) = 80 /\ exists k t0 t1, nth_error (fst s) (2 * k) = Some t0 /\ nth_error (fst s) (2 * k + 1) = Some t1 /\ hash t0 <> hash t1)) ->
  normalize hash d = Ok d.
Proof.
  intros hash d s Hwf Hct Hlen. pose proof Hwf as [_ [S0 S1]]. pose proof (map_some_len _ _ _ S0) as L0.
  assert (Hin : forall ti, In ti (di_map0 d) -> exists t n, oindex (di_pool d) ti = Ok t /\ tk_sector_ct t = Ok n /\ 0 < n).
  { intros ti Hi. apply In_nth_error in Hi as [k Hk]. pose proof (map_some_nth _ _ _ k S0) as E. rewrite Hk in E.
    destruct (nth_error (fst s) k) as [t|] eqn:Et.
    - destruct (Hct t (nth_error_In _ _ Et)) as (n & En & Hn). exists t, n. unfold oindex. cbv beta in E. rewrite E. auto.
    - apply nth_error_None in Et. assert (k < length (di_map0 d)) by (apply nth_error_Some; congruence). lia. }
  unfold normalize.
  assert (E0 : detect_empty_odd d (di_map0 d) = Ok 0).
  { unfold detect_empty_odd. match goal with |- count_pairs ?f ?l = _ => destruct (count_pairs_ok f l) as (n & En & Hz) end.
    - intros [a b] Hp. apply pairs_in with (n := length (di_map0 d)) in Hp as [Ha Hb]; [|lia].
      destruct (Hin a Ha) as (t & n & -> & E1 & _). destruct (Hin b Hb) as (t' & n' & -> & E2 & _). cbn [obind]. rewrite E1, E2. cbn [obind]. eauto.
    - rewrite En, Hz; [reflexivity|]. intros [a b] Hp. apply pairs_in with (n := length (di_map0 d)) in Hp as [Ha Hb]; [|lia].
      destruct (Hin a Ha) as (t & n1 & -> & E1 & _). destruct (Hin b Hb) as (t' & n' & -> & E2 & Hp'). cbn [obind]. rewrite E1, E2. cbn [obind].
      destruct (Nat.eqb_spec n' 0); [lia|]. rewrite andb_false_r. reflexivity. }
  rewrite E0. cbn [obind].
  assert (Hno : (50 <? length (track_idx_iter d)) && (normalize_cylinders (length (track_idx_iter d)) / 2 <=? 0) = false).
  { destruct (Nat.ltb_spec 50 (length (track_idx_iter d))) as [H|H]; [|reflexivity]. cbn [andb]. apply Nat.leb_gt. unfold normalize_cylinders.
    destruct (Nat.ltb_spec 79 (length (track_idx_iter d))); [cbn; lia|]. destruct (Nat.ltb_spec 39 (length (track_idx_iter d))); [cbn; lia|lia]. }
  rewrite Hno.
  assert (Hd : exists n, detect_duplicate_odd hash d (di_map0 d) = Ok n).
  { unfold detect_duplicate_odd. match goal with |- context [count_pairs ?f ?l] => destruct (count_pairs_ok f l) as (n & En & _) end; [|eauto].
    intros [a b] Hp. apply pairs_in with (n := length (di_map0 d)) in Hp as [Ha Hb]; [|lia].
    destruct (Hin a Ha) as (t & n & -> & E1 & _). destruct (Hin b Hb) as (t' & n' & -> & E2 & _). cbn [obind]. rewrite E1. cbn [obind]. eauto. }
  destruct Hd as (n & En). rewrite En. cbn [obind].
  destruct Hlen as [H40|(H80 & k & t0 & t1 & K0 & K1 & Hne)].
  - rewrite L0, H40. reflexivity.
  - destruct ((50 <? length (di_map0 d)) && (normalize_cylinders (length (di_map0 d)) / 2 <=? n)) eqn:C2; [|reflexivity].
    exfalso. rewrite L0, H80 in C2. change (normalize_cylinders 80 / 2) with 40 in C2. apply andb_true_iff in C2 as [_ C2]. apply Nat.leb_le in C2.
    pose proof (map_some_nth _ _ _ (2 * k) S0) as M0. pose proof (map_some_nth _ _ _ (2 * k + 1) S0) as M1. rewrite K0 in M0. rewrite K1 in M1.
    destruct (nth_error (di_map0 d) (2 * k)) as [a|] eqn:Ea; [|discriminate].
    destruct (nth_error (di_map0 d) (2 * k + 1)) as [b|] eqn:Eb; [|discriminate].
    pose proof (pairs_nth k _ _ _ Ea Eb) as Hp. apply count_pairs_bound in En as [B1 B2].
    rewrite (pairs_length _ _ (le_n _)), L0, H80 in B1, B2. change (80 / 2) with 40 in B1, B2. specialize (B2 ltac:(lia) _ Hp). cbn beta iota in B2.
    unfold oindex in B2. rewrite M0, M1 in B2. cbn [obind] in B2. destruct (tk_sector_ct t0); cbn [obind] in B2; try discriminate.
    injection B2 as B3. apply andb_true_iff in B3 as [_ B3]. apply N.eqb_eq in B3. contradiction.
Qed.
