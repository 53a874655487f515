(* Huffd_proofs.v - the code tree that a valid htree stands for; decoding and encoding follow its codewords. *)
From Coq Require Import Permutation Sorted.
From Verif Require Import Base Base_lemmas BitRing_proofs Huff_model Huff_proofs Huffb_proofs Huffc_proofs Lzhuf_spec.
Import ListNotations.
Open Scope nat_scope.

Section Tree.
Variable n : nat.
Notation nc := (2 * n - 1).
Notation root := (2 * n - 2).

Fixpoint tr_f (s : list nat) (fuel i : nat) : ctree :=
  match fuel with
  | O => Leaf 0
  | S fuel => if nc <=? s.[i] then Leaf (s.[i] - nc) else Node (tr_f s fuel s.[i]) (tr_f s fuel (s.[i] + 1))
  end.
Definition tr (s : list nat) (i : nat) : ctree := tr_f s nc i.
Section Ok.
Variables (x : nat) (f : list N) (p s m : list nat).
Hypothesis H : ok n x f p s m.

Lemma tr_f_mono fuel : forall i, i < nc -> i < fuel -> forall fuel', i < fuel' -> tr_f s fuel i = tr_f s fuel' i.
Proof.
  induction fuel as [|fuel IH]; intros i Hi Hf fuel' Hf'; [lia|]. destruct fuel' as [|fuel']; [lia|]. cbn [tr_f].
  destruct (Nat.leb_spec nc s.[i]) as [C|C]; [reflexivity|].
  destruct (ok_inner _ _ _ _ _ _ H i Hi C) as [A _]. f_equal; apply IH; lia.
Qed.
Lemma tr_eq i : i < nc -> tr s i = if nc <=? s.[i] then Leaf (s.[i] - nc) else Node (tr s s.[i]) (tr s (s.[i] + 1)).
Proof.
  intros Hi. unfold tr. replace nc with (S root) at 1 by lia. cbn [tr_f].
  destruct (Nat.leb_spec nc s.[i]) as [C|C]; [reflexivity|].
  destruct (ok_inner _ _ _ _ _ _ H i Hi C) as [A _]. f_equal; apply tr_f_mono; lia.
Qed.
Lemma tr_leaf i : i < nc -> nc <= s.[i] -> tr s i = Leaf (s.[i] - nc).
Proof. intros Hi C. rewrite (tr_eq i Hi). destruct (Nat.leb_spec nc s.[i]); [reflexivity|lia]. Qed.
Lemma tr_node i : i < nc -> s.[i] < nc -> tr s i = Node (tr s s.[i]) (tr s (s.[i] + 1)).
Proof. intros Hi C. rewrite (tr_eq i Hi). destruct (Nat.leb_spec nc s.[i]); [lia|reflexivity]. Qed.

(* ---- everything below the root is counted once ---- *)
Definition par' (i : nat) : nat := if i =? root then nc else p.[i].
Definition frontier (k : nat) : list nat := filter (fun i => k <=? par' i) (seq 0 k).
Lemma filter_nil {A} (q : A -> bool) l : (forall a, In a l -> q a = false) -> filter q l = [].
Proof. induction l as [|a l IH]; intros Hq; [reflexivity|]. cbn [filter]. rewrite Hq by (left; reflexivity). apply IH. intros; apply Hq; right; assumption. Qed.
Lemma par'_up i : i < nc -> i < par' i.
Proof. intros Hi. unfold par'. destruct (Nat.eqb_spec i root); [lia|]. apply (ok_up _ _ _ _ _ _ i H). lia. Qed.
Lemma filter_perm {A} (q1 q2 : A -> bool) l : (forall a, In a l -> q1 a = true -> q2 a = true -> False) ->
  Permutation (filter (fun a => q1 a || q2 a) l) (filter q1 l ++ filter q2 l).
Proof.
  induction l as [|a l IH]; intros Hq; [apply Permutation_refl|]. cbn [filter].
  assert (IH' := IH ltac:(intros b Hb; apply Hq; right; exact Hb)).
  destruct (q1 a) eqn:E1, (q2 a) eqn:E2; cbn [orb].
  - exfalso. apply (Hq a (or_introl eq_refl)); assumption.
  - cbn [app]. apply perm_skip, IH'.
  - rewrite <- Permutation_middle. apply perm_skip, IH'.
  - exact IH'.
Qed.
Lemma frontier_step k : k < nc -> Permutation (frontier (S k)) (k :: filter (fun i => S k <=? par' i) (seq 0 k)).
Proof.
  intros Hk. unfold frontier. rewrite seq_snoc, filter_app. cbn [filter Nat.add].
  pose proof (par'_up k Hk). destruct (Nat.leb_spec (S k) (par' k)); [|lia]. rewrite <- Permutation_cons_append. apply Permutation_refl.
Qed.
Lemma sons_of k : k < nc -> Permutation (filter (fun i => par' i =? k) (seq 0 k)) (if nc <=? s.[k] then [] else [s.[k]; s.[k] + 1]).
Proof.
  intros Hk. apply NoDup_Permutation.
  - apply NoDup_filter, seq_NoDup.
  - destruct (Nat.leb_spec nc s.[k]); [constructor|]. constructor; [|constructor; [intros []|constructor]]. intros [A|[]]. lia.
  - intros i. rewrite filter_In, in_seq. destruct (Nat.leb_spec nc s.[k]) as [C|C]; cbn [In]; split.
    + intros [A B]. apply Nat.eqb_eq in B. unfold par' in B. destruct (Nat.eqb_spec i root); [lia|].
      destruct (ok_par _ _ _ _ _ _ H i ltac:(lia)) as [_ [D _]]. rewrite B in D. lia.
    + intros [].
    + intros [A B]. apply Nat.eqb_eq in B. unfold par' in B. destruct (Nat.eqb_spec i root); [lia|].
      destruct (ok_par _ _ _ _ _ _ H i ltac:(lia)) as [_ [_ D]]. rewrite B in D. lia.
    + intros B. destruct (ok_inner _ _ _ _ _ _ H k Hk C) as [A [_ [P1 P2]]].
      assert (i < k) by lia. split; [lia|]. apply Nat.eqb_eq. unfold par'. destruct (Nat.eqb_spec i root); [lia|].
      destruct B as [B|[B|[]]]; subst i; assumption.
Qed.
Lemma frontier_next k : k < nc -> Permutation (frontier k) (filter (fun i => S k <=? par' i) (seq 0 k) ++ (if nc <=? s.[k] then [] else [s.[k]; s.[k] + 1])).
Proof.
  intros Hk. unfold frontier. rewrite <- (sons_of k Hk).
  rewrite <- (filter_perm (fun i => S k <=? par' i) (fun i => par' i =? k)).
  - rewrite (filter_ext (fun i => k <=? par' i) (fun i => (S k <=? par' i) || (par' i =? k))); [apply Permutation_refl|].
    intros i. destruct (Nat.leb_spec k (par' i)), (Nat.leb_spec (S k) (par' i)), (Nat.eqb_spec (par' i) k); cbn [orb]; try reflexivity; lia.
  - intros i _ A B. apply Nat.leb_le in A. apply Nat.eqb_eq in B. lia.
Qed.
Lemma count_all {X} (g : ctree -> list X) (own : nat -> list X) :
  (forall i, i < nc -> Permutation (g (tr s i)) (own i ++ (if nc <=? s.[i] then [] else g (tr s s.[i]) ++ g (tr s (s.[i] + 1))))) ->
  Permutation (g (tr s root)) (flat_map own (seq 0 nc)).
Proof.
  intros Hg. pose proof (ok_n _ _ _ _ _ _ H) as Hn.
  assert (A : forall j, j <= nc -> Permutation (g (tr s root)) (flat_map own (seq (nc - j) j) ++ flat_map (fun i => g (tr s i)) (frontier (nc - j)))).
  { induction j as [|j IH]; intros Hj.
    - rewrite Nat.sub_0_r. cbn [seq flat_map app].
      assert (E : frontier nc = [root]).
      { unfold frontier. assert (Es : seq 0 nc = seq 0 root ++ [root]) by (replace nc with (S root) by lia; apply seq_snoc).
        rewrite Es, filter_app. rewrite filter_nil.
        - cbn [filter app Nat.add]. unfold par'. rewrite Nat.eqb_refl, Nat.leb_refl. reflexivity.
        - intros i Hi. apply in_seq in Hi. unfold par'. destruct (Nat.eqb_spec i root); [lia|].
          destruct (ok_up _ _ _ _ _ _ i H ltac:(lia)). apply Nat.leb_gt. lia. }
      rewrite E. cbn [flat_map]. rewrite app_nil_r. apply Permutation_refl.
    - specialize (IH ltac:(lia)). rewrite IH. clear IH. set (k := nc - S j). replace (nc - j) with (S k) by (unfold k; lia).
      assert (Hk : k < nc) by (unfold k; lia).
      cbn [seq flat_map].
      rewrite (Permutation_flat_map (fun i => g (tr s i)) (frontier_step k Hk)).
      rewrite (Permutation_flat_map (fun i => g (tr s i)) (frontier_next k Hk)).
      cbn [flat_map]. rewrite flat_map_app.
      assert (E : flat_map (fun i => g (tr s i)) (if nc <=? s.[k] then [] else [s.[k]; s.[k] + 1]) = if nc <=? s.[k] then [] else g (tr s s.[k]) ++ g (tr s (s.[k] + 1))).
      { destruct (nc <=? s.[k]); [reflexivity|]. cbn [flat_map]. rewrite app_nil_r. reflexivity. }
      rewrite E. rewrite (Hg k Hk).
      generalize (if nc <=? s.[k] then [] else g (tr s s.[k]) ++ g (tr s (s.[k] + 1))).
      generalize (flat_map (fun i => g (tr s i)) (filter (fun i => S k <=? par' i) (seq 0 k))).
      generalize (flat_map own (seq (S k) j)). generalize (own k). intros a b c d.
      rewrite (Permutation_app_comm b). rewrite <- !app_assoc. apply Permutation_app_head.
      rewrite app_assoc. rewrite (Permutation_app_comm (d ++ c) b). apply Permutation_app_head. apply Permutation_app_comm. }
  specialize (A nc ltac:(lia)). rewrite Nat.sub_diag in A. cbn [frontier seq filter flat_map] in A. rewrite app_nil_r in A. exact A.
Qed.
End Ok.

Lemma flat_map_filter {A B} (q : A -> bool) (g : A -> B) l : flat_map (fun a => if q a then [g a] else []) l = map g (filter q l).
Proof. induction l as [|a l IH]; [reflexivity|]. cbn [flat_map filter]. destruct (q a); cbn [map app]; rewrite IH; reflexivity. Qed.

Section Valid.
Variables (f : list N) (p s m : list nat).
Hypothesis H : ok n nc f p s m.
Lemma tree_leaves : Permutation (leaves (tr s root)) (seq 0 n).
Proof.
  rewrite (count_all nc f p s m H leaves (fun i => if nc <=? s.[i] then [s.[i] - nc] else [])).
  - rewrite (flat_map_filter (fun i => nc <=? s.[i]) (fun i => s.[i] - nc)).
    change (fun i => nc <=? s.[i]) with (leafb n s).
    rewrite (Permutation_map (fun i => s.[i] - nc) (leaves_perm n _ _ _ _ (ok_shape _ _ _ _ _ H))), map_map.
    rewrite (map_ext_in _ (fun y => y)); [rewrite map_id; apply Permutation_refl|].
    intros y Hy. apply in_seq in Hy. destruct (ok_map _ _ _ _ _ _ H y ltac:(lia)) as [_ ->]. lia.
  - intros i Hi. rewrite (tr_eq _ _ _ _ _ H i Hi). destruct (nc <=? s.[i]); cbn [leaves app]; apply Permutation_refl.
Qed.
Lemma tree_siblings : Permutation (map (fun e => (tr s (2 * e), tr s (2 * e + 1))) (seq 0 (n - 1))) (siblings (tr s root)).
Proof.
  pose proof (ok_n _ _ _ _ _ _ H) as Hn. symmetry.
  rewrite (count_all nc f p s m H siblings (fun i => if negb (leafb n s i) then [(tr s s.[i], tr s (s.[i] + 1))] else [])).
  - rewrite (flat_map_filter (fun i => negb (leafb n s i)) (fun i => (tr s s.[i], tr s (s.[i] + 1)))).
    rewrite <- (map_map (fun i => s.[i]) (fun a => (tr s a, tr s (a + 1)))).
    rewrite <- (map_map (fun e => 2 * e) (fun a => (tr s a, tr s (a + 1)))). apply Permutation_map. symmetry.
    apply NoDup_Permutation_bis.
    + apply NoDup_map_in; [intros; lia|apply seq_NoDup].
    + rewrite !map_length, seq_length.
      pose proof (filter_split_length (leafb n s) (seq 0 nc)) as A. rewrite seq_length in A.
      rewrite (Permutation_length (leaves_perm n _ _ _ _ (ok_shape _ _ _ _ _ H))), map_length, seq_length in A. lia.
    + intros a Ha. apply in_map_iff in Ha. destruct Ha as [e [<- He]]. apply in_seq in He.
      destruct (ok_par _ _ _ _ _ _ H (2 * e) ltac:(lia)) as [A [B C]]. apply in_map_iff. exists p.[2 * e]. split.
      * destruct C as [C|C]; [exact C|]. destruct (ok_inner _ _ _ _ _ _ H _ A B) as [_ [Ev _]]. apply Nat.even_spec in Ev. destruct Ev as [z Z]. lia.
      * apply filter_In. split; [apply in_seq; lia|]. unfold leafb. destruct (Nat.leb_spec nc s.[p.[2 * e]]); [lia|reflexivity].
  - intros i Hi. rewrite (tr_eq _ _ _ _ _ H i Hi). unfold leafb. destruct (nc <=? s.[i]); cbn [negb siblings app]; apply Permutation_refl.
Qed.
Lemma tree_weights c : length c = n -> (forall y, y < n -> nth y c 0%N = weight f m y) -> forall i, i < nc -> tree_weight c (tr s i) = f.{i}.
Proof.
  intros Lc Hc. induction i as [i IH] using lt_wf_ind. intros Hi. rewrite (tr_eq _ _ _ _ _ H i Hi).
  destruct (Nat.leb_spec nc s.[i]) as [C|C]; cbn [tree_weight].
  - destruct (ok_leaf _ _ _ _ _ _ H i Hi C) as [A B]. rewrite Hc by lia. unfold weight. rewrite B. reflexivity.
  - destruct (ok_inner _ _ _ _ _ _ H i Hi C) as [A _]. rewrite !IH by lia.
    pose proof (ok_sum _ _ _ _ _ _ H i Hi C) as E. destruct (Nat.eqb_spec i nc); lia.
Qed.
Lemma pairs_seq {A} (g : nat -> A) k : flat_map (fun e => [g (2 * e); g (2 * e + 1)]) (seq 0 k) = map g (seq 0 (2 * k)).
Proof.
  induction k as [|k IH]; [reflexivity|]. rewrite seq_snoc, flat_map_app, IH. replace (2 * S k) with (S (S (2 * k))) by lia.
  rewrite !seq_snoc, !map_app. cbn [flat_map map app Nat.add]. rewrite <- app_assoc. cbn [app].
  replace (S (2 * k)) with (2 * k + 1) by lia. reflexivity.
Qed.
Lemma flat_map_map {A B C} (g : A -> B) (h : B -> list C) l : flat_map h (map g l) = flat_map (fun a => h (g a)) l.
Proof. induction l as [|a l IH]; [reflexivity|]. cbn [map flat_map]. rewrite IH. reflexivity. Qed.
Lemma sorted_map (g : nat -> N) k : (forall i, i + 1 < k -> (g i <= g (i + 1)%nat)%N) -> forall a, Sorted N.le (map g (seq a (k - a))).
Proof.
  intros Hg a. remember (k - a) as d eqn:Ed. revert a Ed. induction d as [|d IH]; intros a Ed; [constructor|].
  cbn [seq map]. constructor; [apply IH; lia|]. destruct d as [|d]; cbn [seq map]; constructor.
  replace (S a) with (a + 1) by lia. apply Hg. lia.
Qed.
Lemma tree_huffman c : length c = n -> (forall y, y < n -> nth y c 0%N = weight f m y) -> huffman_tree n c (tr s root).
Proof.
  intros Lc Hc. pose proof (ok_n _ _ _ _ _ _ H) as Hn. split; [exact tree_leaves|].
  exists (map (fun e => (tr s (2 * e), tr s (2 * e + 1))) (seq 0 (n - 1))). split; [exact tree_siblings|].
  rewrite flat_map_map. cbn [fst snd]. rewrite (pairs_seq (fun i => tree_weight c (tr s i))).
  rewrite (map_ext_in _ (fun i => f.{i})).
  - pose proof (sorted_map (fun i => f.{i}) root (fun i Hi => ok_sort _ _ _ _ _ _ H i ltac:(lia)) 0) as A. rewrite Nat.sub_0_r in A.
    replace (2 * (n - 1)) with root by lia. exact A.
  - intros i Hi. apply in_seq in Hi. apply tree_weights; auto. lia.
Qed.
End Valid.
End Tree.

(* the code tree of an htree *)
Definition tree_of (n : nat) (t : htree) : ctree := tr n (h_son t) (2 * n - 2).
Lemma valid_huffman n t : valid n t -> huffman_tree n (weights t) (tree_of n t).
Proof.
  intros V. apply (tree_huffman n _ _ _ _ (v_ok _ _ V)).
  - apply (weights_length _ _ V).
  - intros y Hy. apply (weights_nth _ _ _ V Hy).
Qed.

(* ---- codewords of a tree ---- *)
Lemma codeword_in T y w : codeword T y w -> In y (leaves T).
Proof. induction 1; cbn [leaves In]; auto; apply in_or_app; auto. Qed.
Lemma codeword_exists T y : In y (leaves T) -> exists w, codeword T y w.
Proof.
  induction T as [z|l IHl r IHr]; cbn [leaves In].
  - intros [<-|[]]. eexists. constructor.
  - intros A. apply in_app_or in A. destruct A as [A|A]; [destruct (IHl A) as [w W]; exists (false :: w); constructor; exact W|destruct (IHr A) as [w W]; exists (true :: w); constructor; exact W].
Qed.
Lemma codeword_prefix T : forall y y' w w' r r', codeword T y w -> codeword T y' w' -> w ++ r = w' ++ r' -> y = y' /\ w = w' /\ r = r'.
Proof.
  induction T as [z|a IHa b IHb]; intros y y' w w' r r' C C' E; inversion C; subst; inversion C'; subst; cbn [app] in E; try discriminate; auto;
    injection E as E; [destruct (IHa _ _ _ _ _ _ H3 H4 E) as [A [B D]]|destruct (IHb _ _ _ _ _ _ H3 H4 E) as [A [B D]]]; subst; auto.
Qed.
Lemma nodup_app {A} (a b : list A) : NoDup (a ++ b) -> NoDup a /\ NoDup b /\ (forall z, In z a -> In z b -> False).
Proof.
  induction a as [|x a IH]; cbn [app]; intros ND; [split; [constructor|split; [exact ND|intros z []]]|].
  inversion ND as [|? ? N1 N2]; subst. destruct (IH N2) as [A1 [A2 A3]]. split; [constructor; [|exact A1]|split; [exact A2|]].
  - intros X. apply N1, in_or_app. left; exact X.
  - intros z [->|Hz] Hb; [apply N1, in_or_app; right; exact Hb|exact (A3 z Hz Hb)].
Qed.
Lemma codeword_unique T : NoDup (leaves T) -> forall y w w', codeword T y w -> codeword T y w' -> w = w'.
Proof.
  induction T as [z|a IHa b IHb]; intros ND y w w' C C'; inversion C as [|? ? ? w1 C1|? ? ? w1 C1]; subst; inversion C' as [|? ? ? w2 C2|? ? ? w2 C2]; subst; auto; cbn [leaves] in ND;
    destruct (nodup_app _ _ ND) as [A1 [A2 A3]].
  - f_equal. apply (IHa A1 y); assumption.
  - exfalso. apply codeword_in in C1, C2. exact (A3 y C1 C2).
  - exfalso. apply codeword_in in C1, C2. exact (A3 y C2 C1).
  - f_equal. apply (IHb A2 y); assumption.
Qed.
(* a sequence of bits starts with a codeword or is too short *)
Lemma codeword_complete T bits : (exists y w r, codeword T y w /\ bits = w ++ r) \/ (forall y w r, codeword T y w -> bits <> w ++ r).
Proof.
  revert bits; induction T as [z|a IHa b IHb]; intros bits; [left; exists z, [], bits; split; [constructor|reflexivity]|].
  destruct bits as [|[|] bits].
  - right. intros y w r C E. inversion C; subst; discriminate.
  - destruct (IHb bits) as [[y [w [r [C E]]]]|N].
    + left. exists y, (true :: w), r. split; [constructor; exact C|cbn [app]; rewrite E; reflexivity].
    + right. intros y w r C E. inversion C; subst; cbn [app] in E; [discriminate|]. injection E as E. exact (N _ _ _ H3 E).
  - destruct (IHa bits) as [[y [w [r [C E]]]]|N].
    + left. exists y, (false :: w), r. split; [constructor; exact C|cbn [app]; rewrite E; reflexivity].
    + right. intros y w r C E. inversion C; subst; cbn [app] in E; [|discriminate]. injection E as E. exact (N _ _ _ H3 E).
Qed.

(* ---- the source of bits ---- *)
Definition bits_left (s : bitsrc) : list bool := skipn (b_ptr s) (b_bits s) ++ flat_map byte_bits (b_rest s).
Definition src_ok (s : bitsrc) : Prop := b_ptr s <= length (b_bits s).
Lemma skipn_cons {A} (l : list A) i b : nth_error l i = Some b -> skipn i l = b :: skipn (S i) l.
Proof. revert i; induction l as [|h l IH]; intros [|i] E; try discriminate; cbn [skipn nth_error] in *; [congruence|]. rewrite (IH i E). reflexivity. Qed.
Lemma get_bit_ok s : src_ok s ->
  match bits_left s with
  | [] => get_bit s = None
  | b :: r => exists s', get_bit s = Some (b, s') /\ bits_left s' = r /\ src_ok s'
  end.
Proof.
  unfold src_ok, bits_left, get_bit. destruct s as [bits ptr rest]; cbn [b_bits b_ptr b_rest]. intros Hp.
  destruct (nth_error bits ptr) as [b|] eqn:E.
  - rewrite (skipn_cons _ _ _ E). cbn [app]. eexists. split; [reflexivity|]. cbn [b_bits b_ptr b_rest]. split; [reflexivity|].
    assert (ptr < length bits) by (apply nth_error_Some; congruence). lia.
  - apply nth_error_None in E. replace ptr with (length bits) by lia. rewrite skipn_all. cbn [app].
    destruct rest as [|b rest]; [reflexivity|]. cbn [flat_map].
    change (byte_bits b) with (N.testbit b 7 :: skipn 1 (byte_bits b)). cbn [app].
    destruct (512 <? length bits).
    + cbn [app nth_error]. eexists. split; [reflexivity|]. cbn [b_bits b_ptr b_rest skipn length]. split; [reflexivity|lia].
    + rewrite nth_error_app2, Nat.sub_diag by lia. cbn [nth_error]. eexists. split; [reflexivity|]. cbn [b_bits b_ptr b_rest]. split.
      * rewrite skipn_app, skipn_all2 by lia. cbn [app]. replace (S (length bits) - length bits) with 1 by lia. reflexivity.
      * rewrite app_length. cbn [length]. lia.
Qed.

(* ---- decoding ---- *)
Lemma decode_walk_ok n t : valid n t -> forall fuel i src, i < 2 * n - 1 -> i <= fuel -> src_ok src ->
  (forall y w r, codeword (tr n (h_son t) i) y w -> bits_left src = w ++ r ->
     exists src', decode_walk fuel t (h_son t).[i] src = Ok (Some (y, src')) /\ bits_left src' = r /\ src_ok src') /\
  ((forall y w r, codeword (tr n (h_son t) i) y w -> bits_left src <> w ++ r) -> decode_walk fuel t (h_son t).[i] src = Ok None).
Proof.
  intros V. pose proof (v_ok _ _ V) as Ok_. pose proof (v_n _ _ V) as En.
  assert (Ec : h_count t = 2 * n - 1) by (unfold h_count; rewrite En; reflexivity).
  induction fuel as [|fuel IH]; intros i src Hi Hf Hs.
  - assert (C : 2 * n - 1 <= (h_son t).[i]).
    { destruct (Nat.le_gt_cases (2 * n - 1) (h_son t).[i]) as [C|C]; [exact C|]. destruct (ok_inner _ _ _ _ _ _ Ok_ i Hi C). lia. }
    cbn [decode_walk]. rewrite Ec. destruct (Nat.ltb_spec (h_son t).[i] (2 * n - 1)); [lia|].
    rewrite (tr_leaf n _ _ _ _ _ Ok_ i Hi C). split.
    + intros y w r Cw E. inversion Cw; subst. cbn [app] in E. exists src. auto.
    + intros Hno. exfalso. exact (Hno _ [] (bits_left src) (cw_leaf _) eq_refl).
  - cbn [decode_walk]. rewrite Ec. destruct (Nat.ltb_spec (h_son t).[i] (2 * n - 1)) as [C|C].
    + rewrite (tr_node n _ _ _ _ _ Ok_ i Hi C). destruct (ok_inner _ _ _ _ _ _ Ok_ i Hi C) as [A _].
      pose proof (get_bit_ok src Hs) as G. destruct (bits_left src) as [|b rest] eqn:Eb.
      { rewrite G. split; [|reflexivity]. intros y w r Cw E. inversion Cw; subst; discriminate. }
      destruct G as [src' [G1 [G2 G3]]]. rewrite G1.
      rewrite (oindex_ok _ _ 0) by (rewrite (ok_ls _ _ _ _ _ _ Ok_); destruct b; lia). cbn [obind].
      destruct (IH ((h_son t).[i] + (if b then 1 else 0)) src' ltac:(destruct b; lia) ltac:(destruct b; lia) G3) as [I1 I2].
      rewrite G2 in I1, I2. split.
      * intros y w r Cw E. inversion Cw; subst; cbn [app] in E; injection E as -> E; apply (I1 y w0); try exact E; rewrite ?Nat.add_0_r; assumption.
      * intros Hno. apply I2. intros y w r Cw E. destruct b.
        { apply (Hno y (true :: w) r); [constructor; exact Cw|cbn [app]; rewrite E; reflexivity]. }
        { rewrite Nat.add_0_r in Cw. apply (Hno y (false :: w) r); [constructor; exact Cw|cbn [app]; rewrite E; reflexivity]. }
    + rewrite (tr_leaf n _ _ _ _ _ Ok_ i Hi C). split.
      * intros y w r Cw E. inversion Cw; subst. cbn [app] in E. exists src. auto.
      * intros Hno. exfalso. exact (Hno _ [] (bits_left src) (cw_leaf _) eq_refl).
Qed.
Lemma tree_symbols n t y w : valid n t -> codeword (tree_of n t) y w -> y < n.
Proof.
  intros V C. apply codeword_in in C. apply (Permutation_in _ (proj1 (valid_huffman _ _ V))) in C. apply in_seq in C. lia.
Qed.
Lemma decode_char_ok n t src y w r : valid n t -> src_ok src -> codeword (tree_of n t) y w -> bits_left src = w ++ r ->
  exists t' src', decode_char (mkDe t src) = Ok (Some (y, mkDe t' src')) /\ ht_update t y = Ok t' /\ valid n t' /\
    weights t' = count_symbol (weights t) y /\ bits_left src' = r /\ src_ok src'.
Proof.
  intros V Hs C E. pose proof (v_ok _ _ V) as Ok_. pose proof (v_n _ _ V) as En. pose proof (ok_n _ _ _ _ _ _ Ok_) as Hn.
  unfold decode_char. cbn [de_tree de_src]. unfold h_root, h_count. rewrite En.
  rewrite (oindex_ok _ _ 0) by (rewrite (ok_ls _ _ _ _ _ _ Ok_); lia). cbn [obind].
  destruct (proj1 (decode_walk_ok n t V (2 * n - 1) (2 * n - 2) src ltac:(lia) ltac:(lia) Hs) y w r C E) as [src' [D1 [D2 D3]]].
  rewrite D1. cbn [obind]. destruct (update_ok n t y V (tree_symbols _ _ _ _ V C)) as [t' [U1 [U2 U3]]]. rewrite U1. cbn [obind].
  exists t', src'. auto 8.
Qed.
Lemma decode_char_eof n t src : valid n t -> src_ok src -> (forall y w r, codeword (tree_of n t) y w -> bits_left src <> w ++ r) ->
  decode_char (mkDe t src) = Ok None.
Proof.
  intros V Hs Hno. pose proof (v_ok _ _ V) as Ok_. pose proof (v_n _ _ V) as En. pose proof (ok_n _ _ _ _ _ _ Ok_) as Hn.
  unfold decode_char. cbn [de_tree de_src]. unfold h_root, h_count. rewrite En.
  rewrite (oindex_ok _ _ 0) by (rewrite (ok_ls _ _ _ _ _ _ Ok_); lia). cbn [obind].
  rewrite (proj2 (decode_walk_ok n t V (2 * n - 1) (2 * n - 2) src ltac:(lia) ltac:(lia) Hs) Hno). reflexivity.
Qed.
