(* Huffb_proofs.v - rebuild_huff, create and update keep the tree of Huff_model well formed. *)
From Coq Require Import Permutation.
From Verif Require Import Base Base_lemmas BitRing_proofs Huff_model Huff_proofs.
Import ListNotations.
Open Scope nat_scope.

Definition sumN (l : list N) : N := fold_right N.add 0%N l.
Lemma sumN_app a b : sumN (a ++ b) = (sumN a + sumN b)%N.
Proof. induction a as [|x a IH]; cbn [app sumN fold_right]; [reflexivity|]. fold (sumN (a ++ b)) (sumN a). rewrite IH. lia. Qed.
Lemma sumN_perm a b : Permutation a b -> sumN a = sumN b.
Proof. induction 1; cbn [sumN fold_right]; try lia. - fold (sumN l) (sumN l'). lia. Qed.
Lemma sumN_split {A} (g : A -> N) (q : A -> bool) l :
  sumN (map g l) = (sumN (map g (filter q l)) + sumN (map g (filter (fun x => negb (q x)) l)))%N.
Proof.
  induction l as [|x l IH]; [reflexivity|]. cbn [map filter]. destruct (q x); cbn [negb map]; cbn [sumN fold_right];
    fold (sumN (map g l)); rewrite IH; cbn [sumN fold_right]; unfold sumN; lia.
Qed.
Lemma filter_split_length {A} (q : A -> bool) l : length (filter q l) + length (filter (fun x => negb (q x)) l) = length l.
Proof. induction l as [|x l IH]; [reflexivity|]. cbn [filter length]. destruct (q x); cbn [negb length]; lia. Qed.
Lemma NoDup_map_in {A B} (g : A -> B) l : (forall x y, In x l -> In y l -> g x = g y -> x = y) -> NoDup l -> NoDup (map g l).
Proof.
  induction l as [|x l IH]; intros Hg Hn; [constructor|]. inversion Hn; subst. cbn [map]. constructor.
  - intros Hi. apply in_map_iff in Hi. destruct Hi as [y [E Hy]]. assert (x = y) by (apply Hg; cbn; auto). subst. contradiction.
  - apply IH; [|assumption]. intros a b Ha Hb. apply Hg; right; assumption.
Qed.

Lemma NoDup_app_intro {A} (a b : list A) : NoDup a -> NoDup b -> (forall z, In z a -> In z b -> False) -> NoDup (a ++ b).
Proof.
  induction a as [|x a IH]; intros Ha Hb H; [exact Hb|]. inversion Ha; subst. cbn [app]. constructor.
  - intros X. apply in_app_or in X. destruct X as [X|X]; [contradiction|]. apply (H x); [left; reflexivity|exact X].
  - apply IH; auto. intros z Hz. apply H. right; exact Hz.
Qed.

Section Tree.
Variable n : nat.
Notation nc := (2 * n - 1).
Notation root := (2 * n - 2).
Notation "l .[ i ]" := (nth i l 0) (at level 8, left associativity, format "l .[ i ]").
Notation "l .{ i }" := (nth i l 0%N) (at level 8, left associativity, format "l .{ i }").

Lemma update_loop_ok fuel : forall f p s m c, ok n c f p s m -> c < nc -> (f.{root} < h_max)%N -> nc - c <= fuel ->
  exists f' p' s' m', update_loop fuel (mkHT n f p s m) c = Ok (mkHT n f' p' s' m') /\ ok n nc f' p' s' m' /\
    (f'.{root} = f.{root} + 1)%N /\
    (forall y, y < n -> weight f' m' y = (weight f m y + (if (s.[c] =? nc + y)%nat then 1 else 0))%N).
Proof.
  induction fuel as [|fuel IH]; intros f p s m c H Hc Hr Hf; [lia|].
  destruct (update_node_ok n f p s m c H Hc Hr) as [f' [p' [s' [m' [l [E [Rl [El [Pl [Fr [H' W]]]]]]]]]]].
  cbn [update_loop]. rewrite E. cbn [obind]. cbn [h_parent].
  rewrite (oindex_ok p' l 0) by (rewrite (ok_lp _ _ _ _ _ _ H'); lia). cbn [obind].
  destruct (Nat.eqb_spec c root) as [Ec|Ec].
  - replace l with root in * by (destruct El; symmetry; auto). rewrite Pl, (ok_root _ _ _ _ _ _ H). cbn [Nat.eqb].
    exists f', p', s', m'. split; [reflexivity|]. split; [exact H'|]. split; [exact Fr|exact W].
  - assert (Hl : l < root) by (destruct El; destruct (Nat.eq_dec l root) as [X|X]; [exfalso; auto|lia]).
    destruct (ok_up _ _ _ _ _ _ l H' Hl) as [U1 U2].
    destruct (Nat.eqb_spec p'.[l] 0) as [X|_]; [lia|].
    destruct (IH f' p' s' m' p'.[l] H' U2 ltac:(rewrite Fr, N.add_0_r; exact Hr) ltac:(lia)) as [f2 [p2 [s2 [m2 [E2 [H2 [Fr2 W2]]]]]]].
    exists f2, p2, s2, m2. split; [exact E2|]. split; [exact H2|]. split; [rewrite Fr2, Fr; lia|].
    intros y Hy. rewrite (W2 y Hy), (W y Hy).
    destruct (ok_par _ _ _ _ _ _ H' l Hl) as [_ [Q _]]. destruct (Nat.eqb_spec s'.[p'.[l]] (nc + y)); lia.
Qed.

(* ---- the weight of the root is the sum of the weights of the symbols ---- *)
Record shape (f : list N) (p s m : list nat) : Prop := mkSh {
  sh_n : 2 <= n;
  sh_leaf : forall i, i < nc -> nc <= s.[i] -> s.[i] < nc + n /\ m.[s.[i] - nc] = i;
  sh_sum : forall i, i < nc -> s.[i] < nc -> (f.{i} = f.{s.[i]} + f.{s.[i] + 1})%N;
  sh_map : forall y, y < n -> m.[y] < nc /\ s.[m.[y]] = nc + y;
  sh_par : forall i, i < root -> p.[i] < nc /\ s.[p.[i]] < nc /\ (s.[p.[i]] = i \/ s.[p.[i]] + 1 = i) }.
Lemma ok_shape f p s m : ok n nc f p s m -> shape f p s m.
Proof.
  intros H. constructor.
  - exact (ok_n _ _ _ _ _ _ H).
  - exact (ok_leaf _ _ _ _ _ _ H).
  - intros i Hi Hs. pose proof (ok_sum _ _ _ _ _ _ H i Hi Hs) as E. destruct (Nat.eqb_spec i nc); lia.
  - exact (ok_map _ _ _ _ _ _ H).
  - exact (ok_par _ _ _ _ _ _ H).
Qed.
Definition leafb (s : list nat) (i : nat) : bool := nc <=? s.[i].
Lemma leaves_perm f p s m : shape f p s m -> Permutation (filter (leafb s) (seq 0 nc)) (map (fun y => m.[y]) (seq 0 n)).
Proof.
  intros H. apply NoDup_Permutation.
  - apply NoDup_filter, seq_NoDup.
  - apply NoDup_map_in; [|apply seq_NoDup]. intros a b Ha Hb E. apply in_seq in Ha, Hb.
    destruct (sh_map _ _ _ _ H a ltac:(lia)) as [_ A]. destruct (sh_map _ _ _ _ H b ltac:(lia)) as [_ B]. rewrite E in A. lia.
  - intros i. rewrite filter_In, in_map_iff. unfold leafb. split.
    + intros [A B]. apply in_seq in A. apply Nat.leb_le in B. destruct (sh_leaf _ _ _ _ H i ltac:(lia) B) as [C D].
      exists (s.[i] - nc). split; [exact D|]. apply in_seq. lia.
    + intros [y [E Hy]]. apply in_seq in Hy. destruct (sh_map _ _ _ _ H y ltac:(lia)) as [A B]. rewrite E in *.
      split; [apply in_seq; lia|]. apply Nat.leb_le. lia.
Qed.
Lemma inner_perm f p s m : shape f p s m ->
  Permutation (seq 0 root) (flat_map (fun i => [s.[i]; s.[i] + 1]) (filter (fun i => negb (leafb s i)) (seq 0 nc))).
Proof.
  intros H. pose proof (sh_n _ _ _ _ H) as Hn. apply NoDup_Permutation_bis.
  - apply seq_NoDup.
  - rewrite (flat_map_const_length _ 2) by (intros; reflexivity). rewrite seq_length.
    pose proof (filter_split_length (leafb s) (seq 0 nc)) as A. rewrite seq_length in A.
    rewrite (Permutation_length (leaves_perm _ _ _ _ H)), map_length, seq_length in A. lia.
  - intros i Hi. apply in_seq in Hi. destruct (sh_par _ _ _ _ H i ltac:(lia)) as [A [B C]].
    apply in_flat_map. exists p.[i]. split.
    + apply filter_In. split; [apply in_seq; lia|]. unfold leafb. destruct (Nat.leb_spec nc s.[p.[i]]); [lia|reflexivity].
    + cbn [In]. destruct C as [C|C]; auto.
Qed.
Lemma root_sum f p s m : shape f p s m -> f.{root} = sumN (map (weight f m) (seq 0 n)).
Proof.
  intros H. pose proof (sh_n _ _ _ _ H) as Hn.
  pose proof (sumN_split (fun i => f.{i}) (leafb s) (seq 0 nc)) as A.
  rewrite (sumN_perm _ _ (Permutation_map (fun i => f.{i}) (leaves_perm _ _ _ _ H))), map_map in A.
  assert (B : sumN (map (fun i => f.{i}) (filter (fun i => negb (leafb s i)) (seq 0 nc))) = sumN (map (fun i => f.{i}) (seq 0 root))).
  { rewrite (sumN_perm _ _ (Permutation_map (fun i => f.{i}) (inner_perm _ _ _ _ H))).
    assert (Hin : forall i, In i (filter (fun i => negb (leafb s i)) (seq 0 nc)) -> i < nc /\ s.[i] < nc).
    { intros i Hi. apply filter_In in Hi. destruct Hi as [C D]. apply in_seq in C. unfold leafb in D.
      destruct (Nat.leb_spec nc s.[i]); [discriminate|]. lia. }
    revert Hin. generalize (filter (fun i => negb (leafb s i)) (seq 0 nc)).
    induction l as [|i l IH]; intros Hin; [reflexivity|]. cbn [flat_map app map]. destruct (Hin i (or_introl eq_refl)) as [C D].
    cbn [sumN fold_right]. fold (sumN (map (fun i => f.{i}) l)) (sumN (map (fun i => f.{i}) (flat_map (fun i => [s.[i]; s.[i] + 1]) l))).
    rewrite IH by (intros; apply Hin; right; assumption).
    rewrite (sh_sum _ _ _ _ H i C D). lia. }
  rewrite B in A.
  assert (C : map (fun i => f.{i}) (seq 0 nc) = map (fun i => f.{i}) (seq 0 root) ++ [f.{root}]).
  { replace nc with (S root) by lia. rewrite seq_snoc, map_app. reflexivity. }
  rewrite C, sumN_app in A. cbn [sumN fold_right] in A. change (map (fun y => f.{m.[y]}) (seq 0 n)) with (map (weight f m) (seq 0 n)) in A. lia.
Qed.

(* ---- building the inner nodes ---- *)
Record built (w : nat -> N) (j : nat) (f : list N) (s : list nat) : Prop := mkB {
  bu_lf : length f = 2 * n; bu_ls : length s = nc; bu_j : n <= j <= nc;
  bu_sort : forall i, i + 1 < j -> (f.{i} <= f.{i + 1})%N;
  bu_pos : forall i, i < j -> (1 <= f.{i})%N;
  bu_perm : Permutation (firstn j s) (map (fun y => nc + y) (seq 0 n) ++ map (fun e => 2 * e) (seq 0 (j - n)));
  bu_inner : forall i, i < j -> s.[i] < nc -> s.[i] + 1 < i /\ f.{i} = (f.{s.[i]} + f.{s.[i] + 1})%N;
  bu_leaf : forall i, i < j -> nc <= s.[i] -> f.{i} = w (s.[i] - nc) }.

Lemma firstn_pointwise {A} (a b : list A) j d : j <= length a -> j <= length b -> (forall i, i < j -> nth i a d = nth i b d) -> firstn j a = firstn j b.
Proof.
  intros Ha Hb H. apply nth_ext with (d := d) (d' := d); [rewrite !firstn_length; lia|].
  intros i Hi. rewrite firstn_length in Hi. rewrite !nth_firstn by lia. apply H. lia.
Qed.
Lemma insert_perm (s s' : list nat) j k i : k <= j -> j < length s -> length s' = length s ->
  (forall q, q < k -> s'.[q] = s.[q]) -> s'.[k] = i -> (forall q, k < q -> q <= j -> s'.[q] = s.[q - 1]) ->
  Permutation (firstn (S j) s') (i :: firstn j s).
Proof.
  intros Hk Hj Hl H1 H2 H3.
  assert (E : firstn (S j) s' = firstn k s ++ i :: skipn k (firstn j s)).
  { apply nth_ext with (d := 0) (d' := 0).
    - rewrite app_length. cbn [length]. rewrite skipn_length, !firstn_length. lia.
    - intros q Hq. rewrite firstn_length in Hq. rewrite nth_firstn by lia.
      destruct (Nat.lt_ge_cases q k) as [C|C].
      + rewrite app_nth1 by (rewrite firstn_length; lia). rewrite nth_firstn by lia. apply H1. exact C.
      + rewrite app_nth2 by (rewrite firstn_length; lia). rewrite firstn_length, Nat.min_l by lia.
        destruct (Nat.eq_dec q k) as [->|]; [rewrite Nat.sub_diag; exact H2|].
        replace (q - k) with (S (q - k - 1)) by lia. cbn [nth]. rewrite H3 by lia.
        rewrite skipn_firstn_comm. rewrite nth_firstn by lia. 
        rewrite <- (firstn_skipn k s) at 1. rewrite app_nth2 by (rewrite firstn_length; lia).
        rewrite firstn_length, Nat.min_l by lia. f_equal. lia. }
  rewrite E. rewrite <- Permutation_middle. apply perm_skip.
  replace (firstn k s) with (firstn k (firstn j s)) by (rewrite firstn_firstn; f_equal; lia). rewrite firstn_skipn. apply Permutation_refl.
Qed.

Lemma built_step w j f s f' s' k : built w j f s -> j < nc ->
  let i := 2 * (j - n) in
  i + 2 <= k <= j -> (f.{k - 1} <= f.{i} + f.{i + 1})%N -> (k = j \/ (f.{i} + f.{i + 1} <= f.{k})%N) ->
  length f' = 2 * n -> length s' = nc ->
  (forall q, q < k -> f'.{q} = f.{q} /\ s'.[q] = s.[q]) -> f'.{k} = (f.{i} + f.{i + 1})%N -> s'.[k] = i ->
  (forall q, k < q -> q <= j -> f'.{q} = f.{q - 1} /\ s'.[q] = s.[q - 1]) ->
  built w (j + 1) f' s'.
Proof.
  intros [Lf Ls Hj Sort Pos Perm Inner Leaf] Hjn i Hk Hlo Hhi Lf' Ls' V1 Vk Sk V2.
  assert (Hi : i + 2 <= j) by lia.
  constructor; auto.
  - lia.
  - intros q Hq.
    destruct (Nat.lt_trichotomy (q + 1) k) as [C|[C|C]].
    + destruct (V1 q ltac:(lia)) as [-> _]. destruct (V1 (q + 1) C) as [-> _]. apply Sort. lia.
    + rewrite C, Vk. destruct (V1 q ltac:(lia)) as [-> _]. replace q with (k - 1) by lia. exact Hlo.
    + destruct (V2 (q + 1) C ltac:(lia)) as [-> _]. destruct (Nat.eq_dec q k) as [->|].
      * rewrite Vk. replace (k + 1 - 1) with k by lia. destruct Hhi; lia.
      * destruct (V2 q ltac:(lia) ltac:(lia)) as [-> _]. replace (q + 1 - 1) with (q - 1 + 1) by lia. apply Sort. lia.
  - intros q Hq. destruct (Nat.lt_trichotomy q k) as [C|[C|C]].
    + destruct (V1 q C) as [-> _]. apply Pos. lia.
    + rewrite C, Vk. pose proof (Pos i ltac:(lia)). lia.
    + destruct (V2 q C ltac:(lia)) as [-> _]. apply Pos. lia.
  - replace (j + 1) with (S j) by lia.
    rewrite (insert_perm s s' j k i) by (try lia; try (intros; apply V1; lia); try (intros; apply V2; lia)).
    replace (S j - n) with (S (j - n)) by lia. rewrite seq_snoc, map_app, app_assoc. cbn [map Nat.add].
    rewrite <- Permutation_cons_append. apply perm_skip. exact Perm.
  - intros q Hq Hs. destruct (Nat.lt_trichotomy q k) as [C|[C|C]].
    + destruct (V1 q C) as [Fq Sq]. rewrite Sq in *. destruct (Inner q ltac:(lia) Hs) as [A B]. split; [exact A|].
      rewrite Fq. destruct (V1 s.[q] ltac:(lia)) as [-> _]. destruct (V1 (s.[q] + 1) ltac:(lia)) as [-> _]. exact B.
    + subst q. rewrite Sk in *. split; [lia|]. rewrite Vk.
      destruct (V1 i ltac:(lia)) as [-> _]. destruct (V1 (i + 1) ltac:(lia)) as [-> _]. reflexivity.
    + destruct (V2 q C ltac:(lia)) as [Fq Sq]. rewrite Sq in *. destruct (Inner (q - 1) ltac:(lia) Hs) as [A B]. split; [lia|].
      rewrite Fq, B.
      assert (D : s.[q - 1] + 1 < i).
      { assert (In (s.[q - 1]) (map (fun y => nc + y) (seq 0 n) ++ map (fun e => 2 * e) (seq 0 (j - n)))).
        { eapply Permutation_in; [exact Perm|]. rewrite <- (nth_firstn s j (q - 1) 0) by lia. apply nth_In. rewrite firstn_length. lia. }
        apply in_app_or in H. destruct H as [H|H]; apply in_map_iff in H; destruct H as [e [E He]]; apply in_seq in He; lia. }
      destruct (V1 s.[q - 1] ltac:(lia)) as [-> _]. destruct (V1 (s.[q - 1] + 1) ltac:(lia)) as [-> _]. reflexivity.
  - intros q Hq Hs. destruct (Nat.lt_trichotomy q k) as [C|[C|C]].
    + destruct (V1 q C) as [-> Sq]. rewrite Sq in *. apply Leaf; [lia|exact Hs].
    + subst q. lia.
    + destruct (V2 q C ltac:(lia)) as [-> Sq]. rewrite Sq in *. apply Leaf; [lia|exact Hs].
Qed.

Lemma build_nodes_ok w fuel : forall i j f s, built w j f s -> i = 2 * (j - n) -> 2 <= n -> nc - j <= fuel ->
  exists f' s', build_nodes fuel nc i j f s = Ok (f', s') /\ built w nc f' s' /\ f'.{nc} = f.{nc}.
Proof.
  induction fuel as [|fuel IH]; intros i j f s H Hi Hn Hf; pose proof H as H'; destruct H' as [Lf Ls Hj Sort Pos _ _ _]; cbn [build_nodes].
  - replace j with nc in * by lia. rewrite Nat.ltb_irrefl. exists f, s. split; [reflexivity|]. split; [exact H|reflexivity].
  - destruct (Nat.ltb_spec j nc) as [C|C].
    2:{ replace j with nc in * by lia. exists f, s. split; [reflexivity|]. split; [exact H|reflexivity]. }
    assert (Hij : i + 2 <= j) by lia.
    rewrite (oindex_ok f i 0%N) by lia. cbn [obind]. rewrite (oindex_ok f (i + 1) 0%N) by lia. cbn [obind].
    rewrite oset_ok by lia. cbn [obind]. destruct j as [|j']; [lia|]. set (j := S j') in *.
    set (v := (f.{i} + f.{i + 1})%N) in *. set (f1 := upd f j v).
    assert (Vf1 : forall q, f1.{q} = if q =? j then v else f.{q}) by (intros q; apply nth_upd; lia).
    assert (Lf1 : length f1 = 2 * n) by (unfold f1; rewrite upd_length; exact Lf).
    destruct (back_search_ok v f1 j' (i + 1)) as [k0 [E [Rk [Q1 Q2]]]].
    { unfold j in Hij; lia. } { unfold j in C; lia. } { rewrite Vf1. destruct (Nat.eqb_spec (i + 1) j); [lia|]. unfold v. lia. }
    rewrite E. cbn [obind]. set (k := k0 + 1) in *. assert (Hk : i + 2 <= k <= j) by (unfold k, j; lia).
    destruct (shift_up_ok f1 k ((j - k) * 2) 0%N) as [f2 [E2 [Lf2 Vf2]]]; [rewrite Lf1; lia|].
    rewrite E2. cbn [obind]. rewrite oset_ok by lia. cbn [obind].
    destruct (shift_up_ok s k ((j - k) * 2) 0) as [s2 [E3 [Ls2 Vs2]]]; [rewrite Ls; lia|].
    rewrite E3. cbn [obind]. rewrite oset_ok by lia. cbn [obind].
    destruct (IH (i + 2) (j + 1) (upd f2 k v) (upd s2 k i)) as [f' [s' [E4 [H4 B4]]]].
    + apply (built_step w j f s _ _ k); auto; rewrite <- ?Hi; auto.
      * rewrite Vf1 in Q1. replace (k - 1) with k0 by (unfold k; lia). destruct (Nat.eqb_spec k0 j); [unfold j in *; lia|exact Q1].
      * destruct (Nat.eq_dec k j) as [X|X]; [left; exact X|right]. specialize (Q2 k ltac:(unfold k, j in *; lia)).
        rewrite Vf1 in Q2. destruct (Nat.eqb_spec k j); [contradiction|]. unfold v in Q2. lia.
      * rewrite upd_length. lia.
      * rewrite upd_length. lia.
      * intros q Hq. rewrite !nth_upd by lia. destruct (Nat.eqb_spec q k); [lia|]. rewrite Vf2, Vs2, !Vf1.
        destruct (Nat.ltb_spec k q); [lia|]. cbn [andb]. destruct (Nat.eqb_spec q j); [lia|]. split; reflexivity.
      * rewrite nth_upd by lia. rewrite Nat.eqb_refl. reflexivity.
      * rewrite nth_upd by lia. rewrite Nat.eqb_refl. reflexivity.
      * intros q Hq1 Hq2. rewrite !nth_upd by lia. destruct (Nat.eqb_spec q k); [lia|]. rewrite Vf2, Vs2, !Vf1.
        destruct (Nat.ltb_spec k q); [|lia]. destruct (Nat.leb_spec q (k + (j - k) * 2)); [|lia]. cbn [andb].
        destruct (Nat.eqb_spec (q - 1) j); [lia|]. split; reflexivity.
    + lia.
    + exact Hn.
    + lia.
    + exists f', s'. split; [exact E4|]. split; [exact H4|]. rewrite B4, nth_upd by lia. destruct (Nat.eqb_spec nc k); [lia|].
      rewrite Vf2. destruct (Nat.ltb_spec k nc); [|lia]. destruct (Nat.leb_spec nc (k + (j - k) * 2)); [lia|]. cbn [andb].
      rewrite Vf1. destruct (Nat.eqb_spec nc j); [lia|reflexivity].
Qed.

(* ---- collecting the leaves ---- *)
Definition half (x : N) : N := ((x + 1) / 2)%N.
Record collected (f : list N) (s : list nat) (i : nat) (st : list N * list nat * nat) : Prop := mkC {
  co_lf : length (fst (fst st)) = 2 * n; co_ls : length (snd (fst st)) = nc; co_j : snd st <= i;
  co_list : firstn (snd st) (snd (fst st)) = map (fun q => s.[q]) (filter (leafb s) (seq 0 i));
  co_from : forall q, q < snd st -> exists o, o < i /\ nc <= s.[o] /\ (snd (fst st)).[q] = s.[o] /\ (fst (fst st)).{q} = half f.{o};
  co_sort : forall q, q + 1 < snd st -> ((fst (fst st)).{q} <= (fst (fst st)).{q + 1})%N;
  co_keep : forall q, i <= q -> (fst (fst st)).{q} = f.{q} /\ (snd (fst st)).[q] = s.[q] }.
Lemma half_mono a b : (a <= b)%N -> (half a <= half b)%N.
Proof. intros H. unfold half. apply N.div_le_mono; lia. Qed.

Lemma collect_ok x f p s m : ok n x f p s m ->
  exists st, ofold (collect_leaf nc) (seq 0 nc) (f, s, 0) = Ok st /\ collected f s nc st.
Proof.
  intros H. pose proof (ok_lf _ _ _ _ _ _ H) as Lf. pose proof (ok_ls _ _ _ _ _ _ H) as Ls.
  apply (ofold_seq (collect_leaf nc) (collected f s)).
  - constructor; cbn [fst snd]; auto; try lia; intros; split; reflexivity.
  - intros i [[f1 s1] j] Hi [L1 L2 Hj Hl Hfrom Hs Hk]; cbn [fst snd] in *.
    unfold collect_leaf. rewrite (oindex_ok s1 i 0) by lia. cbn [obind].
    destruct (Hk i ltac:(lia)) as [Kf Ks]. rewrite Ks.
    assert (Ef : filter (leafb s) (seq 0 (S i)) = filter (leafb s) (seq 0 i) ++ (if nc <=? s.[i] then [i] else [])).
    { rewrite seq_snoc, filter_app. cbn [filter Nat.add]. unfold leafb at 2. destruct (nc <=? s.[i]); reflexivity. }
    destruct (Nat.leb_spec nc s.[i]) as [C|C].
    + rewrite (oindex_ok f1 i 0%N) by lia. cbn [obind]. rewrite oset_ok by lia. cbn [obind]. rewrite oset_ok by lia. cbn [obind].
      eexists. split; [reflexivity|]. constructor; cbn [fst snd].
      * rewrite upd_length; exact L1.
      * rewrite upd_length; exact L2.
      * lia.
      * rewrite Ef, map_app, <- Hl. cbn [map].
        apply nth_ext with (d := 0) (d' := 0).
        { rewrite app_length, !firstn_length, upd_length. cbn [length]. lia. }
        { intros q Hq. rewrite firstn_length, upd_length in Hq. rewrite nth_firstn by lia. rewrite nth_upd by lia.
          destruct (Nat.eqb_spec q j) as [->|].
          - rewrite app_nth2 by (rewrite firstn_length; lia). rewrite firstn_length, Nat.min_l, Nat.sub_diag by lia. reflexivity.
          - rewrite app_nth1 by (rewrite firstn_length; lia). rewrite nth_firstn by lia. reflexivity. }
      * intros q Hq. rewrite !nth_upd by lia. destruct (Nat.eqb_spec q j) as [->|].
        { exists i. rewrite Kf. split; [lia|]. split; [exact C|]. split; reflexivity. }
        { destruct (Hfrom q ltac:(lia)) as [o [O1 [O2 [O3 O4]]]]. exists o. split; [lia|]. auto. }
      * intros q Hq. rewrite !nth_upd by lia. destruct (Nat.eqb_spec q j) as [X|]; [lia|].
        destruct (Nat.eqb_spec (q + 1) j) as [X|].
        { destruct (Hfrom q ltac:(lia)) as [o [O1 [O2 [O3 O4]]]]. rewrite O4, Kf. apply half_mono.
          apply (ok_mono _ _ _ _ _ _ H); lia. }
        { apply Hs. lia. }
      * intros q Hq. rewrite !nth_upd by lia. destruct (Nat.eqb_spec q j); [lia|]. apply Hk. lia.
    + eexists. split; [reflexivity|]. constructor; cbn [fst snd]; auto.
      * rewrite Ef, app_nil_r. exact Hl.
      * intros q Hq. destruct (Hfrom q Hq) as [o [O1 O2]]. exists o. split; [lia|exact O2].
      * intros q Hq. apply Hk. lia.
Qed.
Lemma collected_built f p s m st : ok n nc f p s m -> collected f s nc st ->
  snd st = n /\ built (fun y => half (weight f m y)) n (fst (fst st)) (snd (fst st)) /\ (fst (fst st)).{nc} = 0xffff%N.
Proof.
  intros H [L1 L2 Hj Hl Hfrom Hs Hk]. pose proof (ok_n _ _ _ _ _ _ H) as Hn.
  assert (Ej : snd st = n).
  { pose proof (f_equal (@length nat) Hl) as A. rewrite firstn_length, map_length in A.
    rewrite (Permutation_length (leaves_perm _ _ _ _ (ok_shape _ _ _ _ H))), map_length, seq_length in A. lia. }
  split; [exact Ej|]. rewrite Ej in *. split.
  - constructor; auto; try lia.
    + intros q Hq. destruct (Hfrom q Hq) as [o [O1 [O2 [O3 O4]]]]. rewrite O4.
      pose proof (ok_pos _ _ _ _ _ _ H o O1). change 1%N with (half 1). apply half_mono. lia.
    + rewrite Hl. rewrite Nat.sub_diag. cbn [seq map]. rewrite app_nil_r.
      rewrite (Permutation_map (fun q => s.[q]) (leaves_perm _ _ _ _ (ok_shape _ _ _ _ H))), map_map.
      rewrite (map_ext_in _ (fun y => nc + y)); [apply Permutation_refl|]. intros y Hy. apply in_seq in Hy. apply (ok_map _ _ _ _ _ _ H); lia.
    + intros q Hq C. destruct (Hfrom q Hq) as [o [O1 [O2 [O3 O4]]]]. lia.
    + intros q Hq C. destruct (Hfrom q Hq) as [o [O1 [O2 [O3 O4]]]]. rewrite O4, O3. unfold weight.
      destruct (ok_leaf _ _ _ _ _ _ H o O1 O2) as [_ ->]. reflexivity.
  - destruct (Hk nc ltac:(lia)) as [-> _]. exact (ok_back _ _ _ _ _ _ H).
Qed.

(* ---- connecting the parents ---- *)
Lemma built_son w f s : 2 <= n -> built w nc f s -> forall i, i < nc -> s.[i] < nc -> s.[i] + 1 < i /\ Nat.even s.[i] = true.
Proof.
  intros Hn H i Hi Hs. split; [apply (bu_inner _ _ _ _ H i Hi Hs)|].
  assert (In s.[i] (map (fun y => nc + y) (seq 0 n) ++ map (fun e => 2 * e) (seq 0 (nc - n)))).
  { eapply Permutation_in; [exact (bu_perm _ _ _ _ H)|]. rewrite <- (nth_firstn s nc i 0) by lia. apply nth_In. rewrite firstn_length, (bu_ls _ _ _ _ H). lia. }
  apply in_app_or in H0. destruct H0 as [H0|H0]; apply in_map_iff in H0; destruct H0 as [e [E He]]; apply in_seq in He; [lia|].
  rewrite <- E. rewrite Nat.even_mul. reflexivity.
Qed.
Lemma built_range w f s : 2 <= n -> built w nc f s -> forall i, i < nc -> s.[i] < nc + n.
Proof.
  intros Hn H i Hi.
  assert (In s.[i] (map (fun y => nc + y) (seq 0 n) ++ map (fun e => 2 * e) (seq 0 (nc - n)))).
  { eapply Permutation_in; [exact (bu_perm _ _ _ _ H)|]. rewrite <- (nth_firstn s nc i 0) by lia. apply nth_In. rewrite firstn_length, (bu_ls _ _ _ _ H). lia. }
  apply in_app_or in H0. destruct H0 as [H0|H0]; apply in_map_iff in H0; destruct H0 as [e [E He]]; apply in_seq in He; lia.
Qed.
Lemma built_inj w f s : built w nc f s -> forall a b, a < nc -> b < nc -> s.[a] = s.[b] -> a = b.
Proof.
  intros H. assert (ND : NoDup (firstn nc s)).
  { apply (Permutation_NoDup (Permutation_sym (bu_perm _ _ _ _ H))).
    apply NoDup_app_intro.
    - apply NoDup_map_in; [intros; lia|apply seq_NoDup].
    - apply NoDup_map_in; [intros; lia|apply seq_NoDup].
    - intros z A B. apply in_map_iff in A, B. destruct A as [e [<- He]]. destruct B as [e2 [E2 He2]]. apply in_seq in He, He2. lia. }
  intros a b Ha Hb E. rewrite NoDup_nth with (d := 0) in ND. apply ND.
  - rewrite firstn_length, (bu_ls _ _ _ _ H). lia.
  - rewrite firstn_length, (bu_ls _ _ _ _ H). lia.
  - rewrite !nth_firstn by lia. exact E.
Qed.
Lemma built_has w f s : built w nc f s -> forall v, (nc <= v < nc + n \/ exists e, e < nc - n /\ v = 2 * e) -> exists i, i < nc /\ s.[i] = v.
Proof.
  intros H v Hv. assert (A : In v (firstn nc s)).
  { apply (Permutation_in v (Permutation_sym (bu_perm _ _ _ _ H))). apply in_or_app. destruct Hv as [Hv|[e [He ->]]].
    - left. apply in_map_iff. exists (v - nc). split; [lia|]. apply in_seq. lia.
    - right. apply in_map_iff. exists e. split; [reflexivity|]. apply in_seq. lia. }
  destruct (In_nth _ _ 0 A) as [i [Hi E]]. rewrite firstn_length in Hi. rewrite nth_firstn in E by lia. exists i. split; [lia|exact E].
Qed.

Record connected (s p0 : list nat) (i : nat) (st : list nat * list nat) : Prop := mkCn {
  cn_lp : length (fst st) = nc; cn_lm : length (snd st) = n;
  cn_leaf : forall q, q < i -> nc <= s.[q] -> (snd st).[s.[q] - nc] = q;
  cn_inner : forall q, q < i -> s.[q] < nc -> (fst st).[s.[q]] = q /\ (fst st).[s.[q] + 1] = q;
  cn_root : (fst st).[root] = p0.[root] }.
Lemma connect_ok w f s p m : 2 <= n -> built w nc f s -> length p = nc -> length m = n ->
  exists st, ofold (connect nc s) (seq 0 nc) (p, m) = Ok st /\ connected s p nc st.
Proof.
  intros Hn H Lp Lm. pose proof (bu_ls _ _ _ _ H) as Ls.
  apply (ofold_seq (connect nc s) (connected s p)).
  - constructor; cbn [fst snd]; auto; intros; lia.
  - intros i [p1 m1] Hi [L1 L2 Hl Hin Hr]; cbn [fst snd] in *. unfold connect. rewrite (oindex_ok s i 0) by lia. cbn [obind].
    pose proof (built_range w f s Hn H i Hi) as Hrg.
    destruct (Nat.leb_spec nc s.[i]) as [C|C].
    + rewrite oset_ok by lia. cbn [obind]. eexists. split; [reflexivity|]. constructor; cbn [fst snd]; auto.
      * rewrite upd_length; exact L2.
      * intros q Hq Hs. rewrite nth_upd by lia. destruct (Nat.eqb_spec (s.[q] - nc) (s.[i] - nc)) as [X|X].
        { symmetry. apply (built_inj w f s H); lia. }
        { apply Hl; [|exact Hs]. destruct (Nat.eq_dec q i) as [->|]; [contradiction|lia]. }
      * intros q Hq Hs. apply Hin; [|exact Hs]. destruct (Nat.eq_dec q i) as [->|]; [lia|lia].
    + destruct (built_son w f s Hn H i Hi C) as [A Ev].
      rewrite oset_ok by lia. cbn [obind]. rewrite oset_ok by (rewrite upd_length; lia). cbn [obind].
      eexists. split; [reflexivity|]. constructor; cbn [fst snd]; auto.
      * rewrite !upd_length; exact L1.
      * intros q Hq Hs. apply Hl; [|exact Hs]. destruct (Nat.eq_dec q i) as [->|]; [lia|lia].
      * intros q Hq Hs. destruct (Nat.eq_dec q i) as [->|Nq].
        { rewrite !nth_upd by (rewrite ?upd_length; lia). rewrite !Nat.eqb_refl.
          split; [|reflexivity]. destruct (Nat.eqb_spec s.[i] (s.[i] + 1)); lia. }
        destruct (Hin q ltac:(lia) Hs) as [B1 B2].
        destruct (built_son w f s Hn H q ltac:(lia) Hs) as [_ Ev2].
        assert (s.[q] <> s.[i]) by (intros X; apply Nq; apply (built_inj w f s H); lia).
        apply Nat.even_spec in Ev, Ev2. destruct Ev as [e1 E1]. destruct Ev2 as [e2 E2].
        split; rewrite !nth_upd by (rewrite ?upd_length; lia);
          repeat match goal with |- context [?a =? ?b] => destruct (Nat.eqb_spec a b); [lia|] end; assumption.
      * rewrite !nth_upd by (rewrite ?upd_length; lia).
        repeat match goal with |- context [?a =? ?b] => destruct (Nat.eqb_spec a b); [lia|] end. exact Hr.
Qed.
Lemma connected_ok w f s p st : 2 <= n -> built w nc f s -> f.{nc} = 0xffff%N -> (sumN (map w (seq 0 n)) <= 0xffff)%N -> p.[root] = 0 ->
  connected s p nc st -> ok n nc f (fst st) s (snd st) /\ (forall y, y < n -> weight f (snd st) y = w y) /\ f.{root} = sumN (map w (seq 0 n)).
Proof.
  intros Hn H Hb Hmax Hp0 [L1 L2 Hl Hin Hr].
  assert (Hmap : forall y, y < n -> (snd st).[y] < nc /\ s.[(snd st).[y]] = nc + y).
  { intros y Hy. destruct (built_has w f s H (nc + y) ltac:(left; lia)) as [i [Hi E]].
    pose proof (Hl i Hi ltac:(lia)) as A. replace (s.[i] - nc) with y in A by lia. rewrite A. split; assumption. }
  assert (Hpar : forall i, i < root -> (fst st).[i] < nc /\ s.[(fst st).[i]] < nc /\ (s.[(fst st).[i]] = i \/ s.[(fst st).[i]] + 1 = i)).
  { intros i Hi. destruct (built_has w f s H (2 * (i / 2))) as [q [Hq E]].
      { right. exists (i / 2). split; [|reflexivity]. pose proof (Nat.div_mod i 2 ltac:(lia)). lia. }
      pose proof (Nat.div_mod i 2 ltac:(lia)) as D. pose proof (Nat.mod_upper_bound i 2 ltac:(lia)) as D2.
      destruct (Hin q Hq ltac:(lia)) as [A B].
      assert (P : (fst st).[i] = q).
      { destruct (Nat.eq_dec (i mod 2) 0) as [X|X]; [rewrite <- A; f_equal; lia|rewrite <- B; f_equal; lia]. }
      rewrite P, E. split; [exact Hq|]. split; [lia|]. lia. }
  assert (Hlf : forall i, i < nc -> nc <= s.[i] -> s.[i] < nc + n /\ (snd st).[s.[i] - nc] = i).
  { intros i Hi C. split; [exact (built_range w f s Hn H i Hi)|apply Hl; assumption]. }
  assert (Hw : forall y, y < n -> weight f (snd st) y = w y).
  { intros y Hy. unfold weight. destruct (Hmap y Hy) as [A B]. rewrite (bu_leaf _ _ _ _ H _ A) by lia. rewrite B. f_equal. lia. }
  assert (Hroot : f.{root} = sumN (map w (seq 0 n))).
  { rewrite (root_sum f (fst st) s (snd st)).
    - f_equal. apply map_ext_in. intros y Hy. apply in_seq in Hy. apply Hw. lia.
    - constructor; auto. intros i Hi C. apply (bu_inner _ _ _ _ H i Hi C). }
  split; [|split; [exact Hw|exact Hroot]].
    constructor; auto.
    + exact (bu_lf _ _ _ _ H).
    + exact (bu_ls _ _ _ _ H).
    + intros i Hi. destruct (Nat.eq_dec (i + 1) nc) as [X|X].
      * rewrite X, Hb. replace i with root by lia. rewrite Hroot. exact Hmax.
      * apply (bu_sort _ _ _ _ H). lia.
    + exact (bu_pos _ _ _ _ H).
    + intros i Hi C. destruct (built_son w f s Hn H i Hi C) as [A B]. split; [exact A|]. split; [exact B|]. apply Hin; assumption.
    + intros i Hi C. destruct (Nat.eqb_spec i nc); [lia|]. rewrite N.add_0_r. apply (bu_inner _ _ _ _ H i Hi C).
    + rewrite Hr. exact Hp0.
Qed.

(* ---- rebuild_huff ---- *)
Lemma sumN_half l : (2 * sumN (map half l) <= sumN l + N.of_nat (length l))%N.
Proof.
  induction l as [|x l IH]; [cbn; lia|]. cbn [map sumN fold_right length]. fold (sumN (map half l)) (sumN l).
  assert (2 * half x <= x + 1)%N by (unfold half; apply N.mul_div_le; lia). lia.
Qed.
Lemma rebuild_ok f p s m : ok n nc f p s m -> (f.{root} <= h_max)%N -> (N.of_nat n < 0x8000)%N ->
  exists f' p' s' m', rebuild_huff (mkHT n f p s m) = Ok (mkHT n f' p' s' m') /\ ok n nc f' p' s' m' /\
    (f'.{root} < h_max)%N /\ (forall y, y < n -> weight f' m' y = half (weight f m y)).
Proof.
  intros H Hr Hn0. pose proof (ok_n _ _ _ _ _ _ H) as Hn. unfold rebuild_huff, h_count. cbn [h_nsym h_freq h_son h_parent h_map].
  destruct (collect_ok _ _ _ _ _ H) as [[[f1 s1] j] [E1 C1]].
  destruct (collected_built _ _ _ _ _ H C1) as [Ej [B1 Bk]]. cbn [fst snd] in *. subst j.
  rewrite E1. cbn [obind]. clear E1.
  destruct (build_nodes_ok _ nc 0 n f1 s1 B1 ltac:(lia) Hn ltac:(lia)) as [f2 [s2 [E2 [B2 Bk2]]]].
  rewrite E2. cbn [obind]. clear E2.
  destruct (connect_ok _ f2 s2 p m Hn B2 (ok_lp _ _ _ _ _ _ H) (ok_lm _ _ _ _ _ _ H)) as [[p3 m3] [E3 C3]].
  rewrite E3. cbn [obind]. clear E3.
  assert (Hs : (2 * sumN (map (fun y => half (weight f m y)) (seq 0 n)) <= 0x8000 + N.of_nat n)%N).
  { pose proof (sumN_half (map (weight f m) (seq 0 n))) as A. rewrite map_map, <- (root_sum _ _ _ _ (ok_shape _ _ _ _ H)), map_length, seq_length in A.
    unfold h_max in Hr. lia. }
  destruct (connected_ok _ f2 s2 p _ Hn B2 ltac:(rewrite Bk2; exact Bk) ltac:(lia) (ok_root _ _ _ _ _ _ H) C3) as [O [W R]].
  exists f2, p3, s2, m3. split; [reflexivity|]. split; [exact O|]. split; [|exact W]. rewrite R. unfold h_max. lia.
Qed.
End Tree.
