(* Huffc_proofs.v - create, update: the tree is always valid. *)
From Coq Require Import Permutation.
From Verif Require Import Base Base_lemmas BitRing_proofs Huff_model Huff_proofs Huffb_proofs Lzhuf_spec.
Import ListNotations.
Open Scope nat_scope.

Notation "l .[ i ]" := (nth i l 0) (at level 8, left associativity, format "l .[ i ]").
Notation "l .{ i }" := (nth i l 0%N) (at level 8, left associativity, format "l .{ i }").

Definition weights (t : htree) : list N := map (weight (h_freq t) (h_map t)) (seq 0 (h_nsym t)).
Record valid (n : nat) (t : htree) : Prop := mkV {
  v_n : h_nsym t = n; v_small : (N.of_nat n < 0x8000)%N;
  v_ok : ok n (2 * n - 1) (h_freq t) (h_parent t) (h_son t) (h_map t);
  v_top : ((h_freq t).{2 * n - 2} <= h_max)%N }.

Lemma weights_length n t : valid n t -> length (weights t) = n.
Proof. intros H. unfold weights. rewrite map_length, seq_length. apply H. Qed.
Lemma weights_nth n t y : valid n t -> y < n -> (weights t).{y} = weight (h_freq t) (h_map t) y.
Proof.
  intros H Hy. unfold weights. rewrite (v_n _ _ H). rewrite nth_indep with (d' := weight (h_freq t) (h_map t) 0) by (rewrite map_length, seq_length; exact Hy).
  rewrite map_nth. rewrite seq_nth by exact Hy. reflexivity.
Qed.
Lemma valid_root n t : valid n t -> (h_freq t).{2 * n - 2} = sum_counts (weights t).
Proof. intros H. rewrite (root_sum n _ _ _ _ (ok_shape _ _ _ _ _ (v_ok _ _ H))). unfold weights. rewrite (v_n _ _ H). reflexivity. Qed.

Lemma update_ok n t y : valid n t -> y < n -> exists t', ht_update t y = Ok t' /\ valid n t' /\ weights t' = count_symbol (weights t) y.
Proof.
  intros H Hy. pose proof (weights_length _ _ H) as Lw. pose proof (weights_nth n t) as Nw. pose proof (valid_root _ _ H) as Rt.
  destruct H as [En Hs Ok_ Top]. destruct t as [n0 f p s m]. cbn [h_nsym h_freq h_parent h_son h_map] in *. subst n0.
  unfold ht_update, h_root. cbn [h_nsym h_freq h_parent h_son h_map].
  pose proof (ok_n _ _ _ _ _ _ Ok_) as Hn. pose proof (ok_lf _ _ _ _ _ _ Ok_) as Lf.
  rewrite (oindex_ok f (2 * n - 2) 0%N) by lia. cbn [obind]. rewrite Rt.
  set (w0 := weights (mkHT n f p s m)) in *.
  assert (Pre : exists f1 p1 s1 m1, (if (sum_counts w0 =? h_max)%N then rebuild_huff (mkHT n f p s m) else Ok (mkHT n f p s m)) = Ok (mkHT n f1 p1 s1 m1) /\
    ok n (2 * n - 1) f1 p1 s1 m1 /\ (f1.{2 * n - 2} < h_max)%N /\
    (forall z, z < n -> weight f1 m1 z = nth z (if (sum_counts w0 =? 0x8000)%N then map (fun x => (x + 1) / 2)%N w0 else w0) 0%N)).
  { change 0x8000%N with h_max. destruct (N.eqb_spec (sum_counts w0) h_max) as [C|C].
    - destruct (rebuild_ok n f p s m Ok_ Top Hs) as [f1 [p1 [s1 [m1 [E [O1 [R1 W1]]]]]]].
      exists f1, p1, s1, m1. split; [exact E|]. split; [exact O1|]. split; [exact R1|]. intros z Hz. rewrite (W1 z Hz).
      rewrite nth_indep with (d' := half 0) by (rewrite map_length, Lw; exact Hz). change (fun x => ((x + 1) / 2)%N) with half. rewrite map_nth.
      rewrite Nw by (try exact Hz; constructor; auto). reflexivity.
    - exists f, p, s, m. split; [reflexivity|]. split; [exact Ok_|]. split; [rewrite Rt in *; lia|]. intros z Hz.
      rewrite Nw by (try exact Hz; constructor; auto). reflexivity. }
  destruct Pre as [f1 [p1 [s1 [m1 [E [O1 [R1 W1]]]]]]]. rewrite E. cbn [obind h_map]. clear E.
  rewrite (oindex_ok m1 y 0) by (rewrite (ok_lm _ _ _ _ _ _ O1); exact Hy). cbn [obind]. unfold h_count. cbn [h_nsym].
  destruct (ok_map _ _ _ _ _ _ O1 y Hy) as [A B].
  assert (O2 : ok n m1.[y] f1 p1 s1 m1).
  { destruct O1 as [Q1 Q2 Q3 Q4 Q5 Q6 Q7 Q8 Q9 Q10 Q11 Q12 Q13 Q14]. constructor; auto.
    intros i Hi Hsi. pose proof (Q11 i Hi Hsi) as G. destruct (Nat.eqb_spec i (2 * n - 1)); [lia|].
    destruct (Nat.eqb_spec i m1.[y]) as [X|X]; [rewrite X in Hsi; lia|exact G]. }
  destruct (update_loop_ok n (2 * n - 1) f1 p1 s1 m1 m1.[y] O2 A R1 ltac:(lia)) as [f2 [p2 [s2 [m2 [E [O3 [R3 W3]]]]]]].
  rewrite E. eexists. split; [reflexivity|].
  assert (V' : valid n (mkHT n f2 p2 s2 m2)).
  { constructor; auto; cbn [h_nsym h_freq h_parent h_son h_map]; auto. rewrite R3. lia. }
  split; [exact V'|].
  apply nth_ext with (d := 0%N) (d' := 0%N).
  - rewrite (weights_length _ _ V'). unfold count_symbol. rewrite upd_length. destruct (_ =? _)%N; rewrite ?map_length; lia.
  - intros z Hz. rewrite (weights_length _ _ V') in Hz. rewrite (weights_nth _ _ z V' Hz). cbn [h_freq h_map]. rewrite (W3 z Hz).
    unfold count_symbol. rewrite nth_upd by (destruct (_ =? _)%N; rewrite ?map_length; lia).
    rewrite (W1 z Hz), B. destruct (Nat.eqb_spec (2 * n - 1 + y) (2 * n - 1 + z)) as [X|X], (Nat.eqb_spec z y) as [Y|Y].
    + rewrite Y. reflexivity.
    + exfalso; clear - X Y; lia.
    + exfalso; clear - X Y; lia.
    + apply N.add_0_r.
Qed.

(* ---- create ---- *)
Lemma create_leaves_ok n : exists st, ofold (fun s i => create_leaf s (2 * n - 1) i) (seq 0 n) (repeat 0%N (2 * n), repeat 0 (2 * n - 1), repeat 0 n) = Ok st /\
  (length (fst (fst st)) = 2 * n /\ length (snd (fst st)) = 2 * n - 1 /\ length (snd st) = n /\
   (forall i, i < n -> (fst (fst st)).{i} = 1%N /\ (snd (fst st)).[i] = i + (2 * n - 1) /\ (snd st).[i] = i)).
Proof.
  apply (ofold_seq (fun s i => create_leaf s (2 * n - 1) i) (fun k st => length (fst (fst st)) = 2 * n /\ length (snd (fst st)) = 2 * n - 1 /\ length (snd st) = n /\
   (forall i, i < k -> (fst (fst st)).{i} = 1%N /\ (snd (fst st)).[i] = i + (2 * n - 1) /\ (snd st).[i] = i))).
  - cbn [fst snd]. rewrite !repeat_length. split; [reflexivity|]. split; [reflexivity|]. split; [reflexivity|]. intros; lia.
  - intros k [[f s] m] Hk [L1 [L2 [L3 V]]]. cbn [fst snd] in *. unfold create_leaf. rewrite !oset_ok by lia. cbn [obind].
    eexists. split; [reflexivity|]. cbn [fst snd]. rewrite !upd_length. split; [exact L1|]. split; [exact L2|]. split; [exact L3|].
    intros i Hi. rewrite !nth_upd by lia. destruct (Nat.eqb_spec i k) as [->|]; [auto|]. apply V. lia.
Qed.
Record linked (n j : nat) (f : list N) (s p : list nat) : Prop := mkLk {
  lk_b : built n (fun _ => 1%N) j f s; lk_lp : length p = 2 * n - 1;
  lk_leaf : forall q, q < n -> s.[q] = q + (2 * n - 1);
  lk_inner : forall q, n <= q -> q < j -> s.[q] = 2 * (q - n) /\ p.[2 * (q - n)] = q /\ p.[2 * (q - n) + 1] = q;
  lk_root : p.[2 * n - 2] = 0 }.
Lemma create_link_ok n fuel : forall i j f s p, 2 <= n -> linked n j f s p -> i = 2 * (j - n) -> 2 * n - 1 - j <= fuel ->
  exists f' s' p', create_link fuel i j (2 * n - 2) f s p = Ok (f', s', p') /\ linked n (2 * n - 1) f' s' p'.
Proof.
  induction fuel as [|fuel IH]; intros i j f s p Hn H Hi Hf; pose proof (bu_j _ _ _ _ _ (lk_b _ _ _ _ _ H)) as Hj; cbn [create_link].
  - destruct (Nat.leb_spec j (2 * n - 2)); [lia|]. replace j with (2 * n - 1) in * by lia. eauto 8.
  - destruct (Nat.leb_spec j (2 * n - 2)) as [C|C]; [|replace j with (2 * n - 1) in * by lia; eauto 8].
    destruct H as [B Lp Lf_ Inn Rt]. pose proof (bu_lf _ _ _ _ _ B) as Lf. pose proof (bu_ls _ _ _ _ _ B) as Ls.
    rewrite (oindex_ok f i 0%N) by lia. cbn [obind]. rewrite (oindex_ok f (i + 1) 0%N) by lia. cbn [obind].
    rewrite !oset_ok by lia. cbn [obind]. rewrite oset_ok by (rewrite upd_length; lia). cbn [obind].
    apply IH; [exact Hn| |lia|lia]. constructor.
    + apply (built_step n (fun _ => 1%N) j f s _ _ j B ltac:(lia)); rewrite <- ?Hi; rewrite ?upd_length; auto; try lia.
      * (* weight of the last node *)
        assert (M : forall a b, a <= b -> b < j -> (f.{a} <= f.{b})%N).
        { intros a b Hab Hb. induction Hab as [|b Hab IHb]; [lia|]. pose proof (bu_sort _ _ _ _ _ B b ltac:(lia)) as G.
          rewrite Nat.add_1_r in G. specialize (IHb ltac:(lia)). lia. }
        destruct (Nat.lt_ge_cases (j - 1) n) as [D|D].
        { pose proof (bu_leaf _ _ _ _ _ B (j - 1) ltac:(lia)) as G. rewrite (Lf_ (j - 1) D) in G. rewrite G by lia.
          pose proof (bu_pos _ _ _ _ _ B i ltac:(lia)). lia. }
        { destruct (Inn (j - 1) D ltac:(lia)) as [S1 _].
          destruct (bu_inner _ _ _ _ _ B (j - 1) ltac:(lia) ltac:(lia)) as [_ G]. rewrite G, S1.
          pose proof (M (2 * (j - 1 - n)) i ltac:(lia) ltac:(lia)). pose proof (M (2 * (j - 1 - n) + 1) (i + 1) ltac:(lia) ltac:(lia)). lia. }
      * intros q Hq. rewrite !nth_upd by lia. destruct (Nat.eqb_spec q j); [lia|]. split; reflexivity.
      * rewrite nth_upd, Nat.eqb_refl by lia. reflexivity.
      * rewrite nth_upd, Nat.eqb_refl by lia. reflexivity.
    + rewrite !upd_length. exact Lp.
    + intros q Hq. rewrite nth_upd by lia. destruct (Nat.eqb_spec q j); [lia|]. apply Lf_. exact Hq.
    + intros q Hq Hq2. rewrite !nth_upd by (rewrite ?upd_length; lia). destruct (Nat.eqb_spec q j) as [X|X].
      * subst q. rewrite <- Hi. rewrite !Nat.eqb_refl. destruct (Nat.eqb_spec i (i + 1)); [lia|]. auto.
      * destruct (Inn q Hq ltac:(lia)) as [A1 [A2 A3]].
        repeat match goal with |- context [?a =? ?b] => destruct (Nat.eqb_spec a b); [lia|] end. auto.
    + rewrite !nth_upd by (rewrite ?upd_length; lia).
      repeat match goal with |- context [?a =? ?b] => destruct (Nat.eqb_spec a b); [lia|] end. exact Rt.
Qed.
Lemma sumN_ones n : sumN (map (fun _ => 1%N) (seq 0 n)) = N.of_nat n.
Proof. induction n as [|n IH]; [reflexivity|]. rewrite seq_snoc, map_app, sumN_app, IH. cbn [map sumN fold_right]. lia. Qed.
Lemma create_ok n : 2 <= n -> (N.of_nat n < 0x8000)%N -> exists t, ht_create n = Ok t /\ valid n t /\ weights t = repeat 1%N n.
Proof.
  intros Hn Hs. unfold ht_create. destruct (Nat.eqb_spec n 0); [lia|].
  destruct (create_leaves_ok n) as [[[f s] m] [E [L1 [L2 [L3 V]]]]]. cbn [fst snd] in *. rewrite E. cbn [obind]. clear E.
  assert (Lk : linked n n f s (repeat 0 (2 * n - 1))).
  { constructor.
    - constructor; auto; try lia.
      + intros i Hi. destruct (V i ltac:(lia)) as [-> _]. destruct (V (i + 1) ltac:(lia)) as [-> _]. lia.
      + intros i Hi. destruct (V i Hi) as [-> _]. lia.
      + rewrite Nat.sub_diag. cbn [seq map]. rewrite app_nil_r.
        replace (firstn n s) with (map (fun y => 2 * n - 1 + y) (seq 0 n)); [apply Permutation_refl|].
        apply nth_ext with (d := 0) (d' := 0).
        * rewrite map_length, seq_length, firstn_length. lia.
        * intros i Hi. rewrite map_length, seq_length in Hi. rewrite nth_firstn by lia. destruct (V i Hi) as [_ [-> _]].
          rewrite nth_indep with (d' := (fun y => 2 * n - 1 + y) 0) by (rewrite map_length, seq_length; exact Hi).
          rewrite (map_nth (fun y => 2 * n - 1 + y)), seq_nth by exact Hi. lia.
      + intros i Hi C. destruct (V i Hi) as [_ [D _]]. lia.
      + intros i Hi C. apply (V i Hi).
    - apply repeat_length.
    - intros q Hq. apply (V q Hq).
    - intros; lia.
    - apply nth_repeat. }
  destruct (create_link_ok n n 0 n f s _ Hn Lk ltac:(lia) ltac:(lia)) as [f' [s' [p' [E [B Lp Lf_ Inn Rt]]]]].
  rewrite E. cbn [obind]. clear E.
  pose proof (bu_lf _ _ _ _ _ B) as Lf'. rewrite oset_ok by lia. cbn [obind]. rewrite oset_ok by lia. cbn [obind].
  eexists. split; [reflexivity|].
  set (f2 := upd f' (2 * n - 1) 0xffff%N). set (p2 := upd p' (2 * n - 2) 0).
  assert (Vf : forall i, i < 2 * n - 1 -> f2.{i} = f'.{i}). { intros i Hi. unfold f2. rewrite nth_upd by lia. destruct (Nat.eqb_spec i (2 * n - 1)); [lia|reflexivity]. }
  assert (B2 : built n (fun _ => 1%N) (2 * n - 1) f2 s').
  { destruct B as [B1 B2 B3 B4 B5 B6 B7 B8]. constructor; auto.
    - unfold f2. rewrite upd_length. exact B1.
    - intros i Hi. rewrite !Vf by lia. apply B4. exact Hi.
    - intros i Hi. rewrite Vf by lia. apply B5. exact Hi.
    - intros i Hi C. destruct (B7 i Hi C) as [G1 G2]. split; [exact G1|]. rewrite !Vf by lia. exact G2.
    - intros i Hi C. rewrite Vf by lia. apply B8; assumption. }
  assert (Cn : connected n s' p2 (2 * n - 1) (p2, m)).
  { constructor; cbn [fst snd]; auto.
    - unfold p2. rewrite upd_length. exact Lp.
    - intros q Hq C. destruct (Nat.lt_ge_cases q n) as [D|D].
      + rewrite (Lf_ q D). replace (q + (2 * n - 1) - (2 * n - 1)) with q by lia. apply (V q D).
      + destruct (Inn q D Hq) as [G _]. lia.
    - intros q Hq C. destruct (Nat.lt_ge_cases q n) as [D|D]; [rewrite (Lf_ q D) in C; lia|].
      destruct (Inn q D Hq) as [G [G1 G2]]. rewrite G. unfold p2. rewrite !nth_upd by lia.
      destruct (Nat.eqb_spec (2 * (q - n)) (2 * n - 2)); [lia|]. destruct (Nat.eqb_spec (2 * (q - n) + 1) (2 * n - 2)); [lia|]. auto. }
  destruct (connected_ok n (fun _ => 1%N) f2 s' p2 (p2, m) Hn B2) as [O [W R]]; auto.
  - unfold f2. rewrite nth_upd, Nat.eqb_refl by lia. reflexivity.
  - rewrite sumN_ones. lia.
  - unfold p2. rewrite nth_upd, Nat.eqb_refl by lia. reflexivity.
  - cbn [fst snd] in *.
    assert (V2 : valid n (mkHT n f2 p2 s' m)).
    { constructor; cbn [h_nsym h_freq h_parent h_son h_map]; auto. rewrite R, sumN_ones. unfold h_max. lia. }
    split; [exact V2|]. apply nth_ext with (d := 0%N) (d' := 0%N).
    + rewrite (weights_length _ _ V2), repeat_length. reflexivity.
    + intros y Hy. rewrite (weights_length _ _ V2) in Hy. rewrite (weights_nth _ _ _ V2 Hy). cbn [h_freq h_map]. rewrite (W y Hy).
      rewrite nth_indep with (d' := 1%N) by (rewrite repeat_length; exact Hy). rewrite nth_repeat. reflexivity.
Qed.
