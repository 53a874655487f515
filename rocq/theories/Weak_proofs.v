(* Weak_proofs.v - zero-run (weak bit) detection, error map and sync search. *)
From Verif Require Import Base Base_lemmas BitRing_model RangeCheck_model Mfm_model Mfm_spec BitRing_proofs Mfm_proofs Marker_proofs.

(* length of the zero run ending just before position i, starting from an initial run z *)
Definition zrun (l : list bool) (i n : nat) : Prop := n <= i /\ forall k, k < n -> nth (i - 1 - k) l true = false.

Lemma weak_mask_loop_length run l z : length (weak_mask_loop run l z) = length l.
Proof. revert z; induction l as [|b l IH]; intros z; cbn [weak_mask_loop length]; auto. Qed.

Lemma weak_mask_loop_spec run l z i : i < length l ->
  nth i (weak_mask_loop run l z) false = true <->
  ((forall j, j <= i -> nth j l true = false) /\ run < z + S i) \/
  (run <= i /\ forall k, k <= run -> nth (i - k) l true = false).
Proof.
  revert z i; induction l as [|b l IH]; intros z i H; cbn [length] in H; [lia|].
  cbn [weak_mask_loop]. destruct i as [|i].
  - cbn [nth]. rewrite Nat.ltb_lt. split.
    + intros Hz. destruct b; [lia|]. left. split; [|lia]. intros j Hj. assert (j = 0) by lia. subst; reflexivity.
    + intros [[H1 H2]|[H1 H2]].
      * specialize (H1 0 ltac:(lia)). cbn in H1. subst b. lia.
      * specialize (H2 0 ltac:(lia)). cbn in H2. subst b. lia.
  - cbn [nth]. rewrite IH by lia. destruct b; split.
    + intros [[H1 H2]|[H1 H2]].
      * right. split; [lia|]. intros k Hk. destruct (S i - k) eqn:E; [lia|]. cbn. apply H1; lia.
      * right. split; [lia|]. intros k Hk. replace (S i - k) with (S (i - k)) by lia. cbn. apply H2; lia.
    + intros [[H1 H2]|[H1 H2]].
      * specialize (H1 0 ltac:(lia)). discriminate.
      * destruct (Nat.leb_spec run i).
        -- right. split; auto. intros k Hk. specialize (H2 k Hk). replace (S i - k) with (S (i - k)) in H2 by lia. exact H2.
        -- assert (run = S i) by lia. subst run. specialize (H2 (S i) ltac:(lia)). rewrite Nat.sub_diag in H2. discriminate.
    + intros [[H1 H2]|[H1 H2]].
      * left. split; [|lia]. intros [|j] Hj; auto. cbn. apply H1; lia.
      * right. split; [lia|]. intros k Hk. replace (S i - k) with (S (i - k)) by lia. cbn. apply H2; auto.
    + intros [[H1 H2]|[H1 H2]].
      * left. split; [|lia]. intros j Hj. apply (H1 (S j)); lia.
      * destruct (Nat.leb_spec run i).
        -- right. split; auto. intros k Hk. specialize (H2 k Hk). replace (S i - k) with (S (i - k)) in H2 by lia. exact H2.
        -- assert (run = S i) by lia. subst run. left. split; [|lia]. intros j Hj.
           specialize (H2 (i - j) ltac:(lia)). replace (S i - (i - j)) with (S j) in H2 by lia. exact H2.
Qed.

Lemma create_weak_bit_mask_spec m run : plain (m_bits m) ->
  exists w, create_weak_bit_mask m run = Ok w /\ length w = mfm_len m /\
    forall i, i < mfm_len m -> nth i w false = true <-> (run <= i /\ forall k, k <= run -> nth (i - k) (mfm_data m) true = false).
Proof.
  intros H. unfold create_weak_bit_mask. rewrite ring_iter_revolution_plain by auto. cbn [obind].
  rewrite weak_mask_loop_length. unfold mfm_len, ring_len. rewrite Nat.eqb_refl.
  eexists; split; [reflexivity|]. split; [apply weak_mask_loop_length|].
  intros i Hi. rewrite weak_mask_loop_spec by auto. unfold mfm_data. split; auto.
  intros [[H1 H2]|H1]; auto. split; [lia|]. intros k Hk. apply H1; lia.
Qed.

(* region counting *)
Lemma weak_fold_mono run l r w z :
  r <= fst (fst (fold_left (weak_step run) l (r, w, z))).
Proof.
  revert r w z; induction l as [|b l IH]; intros r w z; cbn [fold_left fst]; auto.
  unfold weak_step at 2. destruct b; [destruct (run <=? z)|]; (eapply Nat.le_trans; [|apply IH]); lia.
Qed.

Lemma weak_fold_spec run l r w z :
  r < fst (fst (fold_left (weak_step run) l (r, w, z))) <->
  (exists i, i < length l /\ nth i l false = true /\ (forall j, j < i -> nth j l true = false) /\ run <= z + i) \/
  (exists i, run < length l - i /\ i < length l /\ nth (i + run) l false = true /\ (forall k, k < run -> nth (i + k) l true = false)).
Proof.
  revert r w z; induction l as [|b l IH]; intros r w z.
  - cbn. split; [lia|]. intros [(i & Hi & _)|(i & Hi & _)]; lia.
  - cbn [fold_left]. unfold weak_step at 2. destruct b.
    + destruct (Nat.leb_spec run z) as [Hz|Hz].
      * split; [intros _|intros _].
        -- left. exists 0. cbn. repeat split; try lia.
        -- eapply Nat.lt_le_trans; [|apply weak_fold_mono]. lia.
      * rewrite IH. split.
        -- intros [(i & H1 & H2 & H3 & H4)|(i & H1 & H2 & H3 & H4)].
           ++ right. exists (S i - run). cbn [length]. split; [lia|]. split; [lia|].
              replace (S i - run + run) with (S i) by lia. split; [exact H2|].
              intros k Hk. destruct (S i - run + k) eqn:E; [lia|]. cbn. apply H3; lia.
           ++ right. exists (S i). cbn. repeat split; try lia; auto.
        -- intros [(i & H1 & H2 & H3 & H4)|(i & H1 & H2 & H3 & H4)].
           ++ destruct i; [lia|]. specialize (H3 0 ltac:(lia)). discriminate.
           ++ cbn [length] in *. destruct i as [|i].
              ** destruct run as [|run]; [lia|]. specialize (H4 0 ltac:(lia)). discriminate.
              ** right. exists i. cbn in *. repeat split; try lia; auto.
    + rewrite IH. split.
      * intros [(i & H1 & H2 & H3 & H4)|(i & H1 & H2 & H3 & H4)].
        -- left. exists (S i). cbn. repeat split; try lia; auto. intros [|j] Hj; auto. apply H3; lia.
        -- right. exists (S i). cbn. repeat split; try lia; auto.
      * intros [(i & H1 & H2 & H3 & H4)|(i & H1 & H2 & H3 & H4)]; cbn [length] in *.
        -- destruct i as [|i]; [discriminate|]. left. exists i. cbn in *. repeat split; try lia; auto.
           intros j Hj. apply (H3 (S j)); lia.
        -- destruct i as [|i].
           ++ destruct run as [|run]; [discriminate|]. left. exists run. cbn in *. repeat split; try lia; auto.
              intros j Hj. apply (H4 (S j)); lia.
           ++ right. exists i. cbn in *. repeat split; try lia; auto.
Qed.

Lemma detect_weak_regions_spec m run : plain (m_bits m) -> 0 < run ->
  exists reg wk, detect_weak_bits m run = Ok (reg, wk) /\
    (0 < reg <-> exists i, i + run < mfm_len m /\ nth (i + run) (mfm_data m) false = true /\
                           (forall k, k < run -> nth (i + k) (mfm_data m) true = false)).
Proof.
  intros H Hr. unfold detect_weak_bits. rewrite ring_iter_revolution_plain by auto. cbn [obind].
  destruct (fold_left (weak_step run) (r_bits (m_bits m)) (0, 0, 0)) as [[reg wk] z] eqn:E.
  exists reg, wk. split; [reflexivity|]. pose proof (weak_fold_spec run (r_bits (m_bits m)) 0 0 0) as G.
  rewrite E in G. cbn [fst] in G. rewrite G. unfold mfm_len, ring_len, mfm_data. split.
  - intros [(i & H1 & H2 & H3 & H4)|(i & H1 & H2 & H3 & H4)].
    + exists (i - run). replace (i - run + run) with i by lia. repeat split; auto. intros k Hk. apply H3; lia.
    + exists i. repeat split; auto; lia.
  - intros (i & H1 & H2 & H3). right. exists i. repeat split; auto; lia.
Qed.

(* has_weak_bits is the constant true *)
Lemma has_weak_bits_true m : plain (m_bits m) -> (N.of_nat (mfm_len m) < 2 ^ 64 - 1)%N -> mfm_has_weak_bits m = Ok true.
Proof.
  intros H Hl. unfold mfm_has_weak_bits, detect_weak_bits. rewrite ring_iter_revolution_plain by auto. cbn [obind].
  assert (G : forall l r w z, fst (fst (fold_left (weak_step 6) l (r, w, z))) <= r + length l).
  { clear. induction l as [|b l IH]; intros r w z; cbn [fold_left length]; [cbn; lia|].
    unfold weak_step at 2. destruct b; [destruct (6 <=? z)|]; (eapply Nat.le_trans; [apply IH|]); lia. }
  specialize (G (r_bits (m_bits m)) 0 0 0). destruct (fold_left _ _ _) as [[reg wk] z]. cbn [fst obind] in *.
  f_equal. apply N.ltb_lt. unfold mfm_len, ring_len in Hl. lia.
Qed.

(* ---- sync search ---- *)
Definition sync_at (l : list bool) (p : nat) : Prop := p + 32 <= length l /\ bits_val (slice l p 32) = 0xAAAAAAAA%N.

Lemma find_sync_loop_spec l ct : ct <= length l ->
  (forall q, 1 <= q -> q + 32 <= ct -> ~ sync_at l q) ->
  match find_sync_loop (skipn ct l) ct (bits_val (slice l 0 ct) mod 4294967296) with
  | Some p => sync_at l (p + 1) /\ forall q, 1 <= q <= p -> ~ sync_at l q
  | None => forall q, 1 <= q -> ~ sync_at l q
  end.
Proof.
  intros H Hno. remember (length l - ct) as n eqn:En. revert ct H Hno En.
  induction n as [|n IH]; intros ct H Hno En.
  - assert (ct = length l) by lia. subst ct. rewrite skipn_all. cbn [find_sync_loop].
    intros q Hq Hs. pose proof Hs as [Hs1 _]. exact (Hno q Hq Hs1 Hs).
  - assert (E : skipn ct l = nth ct l false :: skipn (S ct) l).
    { clear -En. revert ct En; induction l as [|a l IH]; intros ct En; cbn in En; [lia|].
      destruct ct; [reflexivity|]. apply IH. lia. }
    rewrite E. cbn [find_sync_loop]. unfold as_u32.
    assert (R : ((2 * (bits_val (slice l 0 ct) mod 4294967296) + b2N (nth ct l false)) mod 4294967296)%N
              = (bits_val (slice l 0 (S ct)) mod 4294967296)%N).
    { rewrite (slice_snoc l 0 ct false) by lia. rewrite bits_val_snoc.
      rewrite <- N.add_mod_idemp_l, N.mul_mod_idemp_r, N.add_mod_idemp_l by discriminate. reflexivity. }
    rewrite R.
    assert (W : 32 <= S ct -> (bits_val (slice l 0 (S ct)) mod 4294967296)%N = bits_val (slice l (S ct - 32) 32)).
    { intros Hc. replace (S ct) with ((S ct - 32) + 32) at 1 by lia. rewrite firstn_skipn_app_eq, bits_val_app.
      cbn [plus]. pose proof (bits_val_lt (slice l (S ct - 32) 32)) as B. rewrite slice_length in * by lia.
      change (2 ^ N.of_nat 32)%N with 4294967296%N in *. rewrite N.add_comm, N.mod_add by discriminate. apply N.mod_small; auto. }
    destruct ((32 <=? ct) && ((bits_val (slice l 0 (S ct)) mod 4294967296 =? 2863311530)%N)) eqn:T.
    + apply andb_prop in T as [T1 T2]. apply Nat.leb_le in T1. apply N.eqb_eq in T2. rewrite W in T2 by lia.
      split.
      * replace (ct - 32 + 1) with (S ct - 32) by lia. split; [lia|auto].
      * intros q Hq. apply Hno; lia.
    + apply IH; try lia. intros q Hq1 Hq2 Hs.
      destruct (Nat.leb_spec (q + 32) ct) as [Hc|Hc]; [apply (Hno q); auto|].
      assert (q = S ct - 32) by lia. subst q. destruct Hs as [_ Hs]. rewrite W in T by lia. rewrite Hs in T.
      rewrite N.eqb_refl, andb_true_r in T. apply Nat.leb_gt in T. lia.
Qed.

Lemma find_sync_spec l :
  match find_sync l 0 with
  | Some p => sync_at l (p + 1) /\ forall q, 1 <= q <= p -> ~ sync_at l q
  | None => forall q, 1 <= q -> ~ sync_at l q
  end.
Proof. unfold find_sync. apply (find_sync_loop_spec l 0); [lia|]. intros q H1 H2; lia. Qed.
