(* RangeCheck_proofs.v *)
From Coq Require Import Permutation Sorted.
From Verif Require Import Base RangeCheck_model.
Local Open Scope Z_scope.

Definition ev_total (l : events) (v : nat) : Z :=
  fold_right (fun e a => (if (fst e <=? v)%nat then snd e else 0) + a) 0 l.

Lemma ev_insert_perm x l : Permutation (ev_insert x l) (x :: l).
Proof.
  induction l as [|y t IH]; cbn [ev_insert]; auto. destruct (ev_leb x y); auto.
  rewrite IH. apply perm_swap.
Qed.
Lemma ev_sort_perm l : Permutation (ev_sort l) l.
Proof. induction l as [|x t IH]; cbn; auto. rewrite ev_insert_perm. auto. Qed.

Lemma ev_total_perm l1 l2 v : Permutation l1 l2 -> ev_total l1 v = ev_total l2 v.
Proof. unfold ev_total. induction 1 as [|x l1' l2' _ IH|x y l|l1' l2' l3' _ IH1 _ IH2]; cbn [fold_right]; lia. Qed.

Definition ev_le (a b : nat * Z) : Prop := (fst a <= fst b)%nat.
Lemma ev_insert_sorted x l : StronglySorted ev_le l -> StronglySorted ev_le (ev_insert x l).
Proof.
  induction l as [|y t IH]; intros H; cbn [ev_insert]; [repeat constructor|].
  inversion H as [|? ? Hs Hf]; subst. destruct (ev_leb x y) eqn:E.
  - assert (Hxy : (fst x <= fst y)%nat) by (unfold ev_leb in E; lia).
    constructor; auto. constructor; auto. eapply Forall_impl; [|exact Hf]. unfold ev_le; intros; lia.
  - assert (Hyx : (fst y <= fst x)%nat) by (unfold ev_leb in E; lia).
    constructor; auto. apply (Permutation_Forall (Permutation_sym (ev_insert_perm x t))). constructor; auto.
Qed.
Lemma ev_sort_sorted l : StronglySorted ev_le (ev_sort l).
Proof. induction l; cbn; [constructor|]. apply ev_insert_sorted; auto. Qed.

Lemma range_sum_sorted l v a : StronglySorted ev_le l -> range_sum l v a = a + ev_total l v.
Proof.
  intros H; revert a; induction H as [|[p t] l Hs IH Hf]; intros a; cbn [range_sum ev_total fold_right fst snd]; [lia|].
  destruct (Nat.ltb_spec v p).
  - assert (Z0 : ev_total l v = 0).
    { clear IH Hs. induction Hf as [|e l' He Hf IH']; cbn; auto.
      unfold ev_le in He; cbn in He. destruct (Nat.leb_spec (fst e) v); [lia|]. fold (ev_total l' v). lia. }
    fold (ev_total l v). destruct (Nat.leb_spec p v); lia.
  - rewrite IH. fold (ev_total l v). destruct (Nat.leb_spec p v); lia.
Qed.

Lemma range_new_sum rs v :
  range_sum (range_new rs) v 0
  = fold_right (fun r a => (if (fst r <=? v)%nat then 1 else 0) - (if (snd r + 1 <=? v)%nat then 1 else 0) + a) 0 rs.
Proof.
  unfold range_new. rewrite range_sum_sorted by apply ev_sort_sorted.
  rewrite (ev_total_perm _ _ v (ev_sort_perm _)). rewrite Z.add_0_l.
  unfold ev_total. induction rs as [|[s e] rs IH]; cbn [flat_map app fold_right fst snd]; auto.
  rewrite IH. destruct (Nat.leb_spec s v), (Nat.leb_spec (e + 1) v); lia.
Qed.

Lemma range_contains_spec rs v : Forall (fun r => (fst r <= snd r)%nat) rs ->
  (range_contains (range_new rs) v = true <-> exists r, In r rs /\ (fst r <= v <= snd r)%nat).
Proof.
  intros H. unfold range_contains. rewrite range_new_sum, Z.ltb_lt.
  assert (G : forall rs, Forall (fun r => (fst r <= snd r)%nat) rs ->
     let s := fold_right (fun r a => (if (fst r <=? v)%nat then 1 else 0) - (if (snd r + 1 <=? v)%nat then 1 else 0) + a) 0 rs in
     0 <= s /\ (0 < s <-> exists r, In r rs /\ (fst r <= v <= snd r)%nat)).
  { clear. induction 1 as [|[s e] rs Hr Hrs [IH1 IH2]]; cbn [fold_right fst snd In] in *.
    - split; [lia|]. split; [lia|]. intros (r & [] & _).
    - set (S := fold_right _ _ rs) in *. destruct (Nat.leb_spec s v), (Nat.leb_spec (e + 1) v); try lia.
      + split; [lia|]. replace (1 - 1 + S) with S by lia. rewrite IH2. split; intros (r & Hi & Hb); exists r; auto.
        destruct Hi as [<-|]; cbn in *; [lia|auto].
      + split; [lia|]. split; [|lia]. intros _. exists (s, e). cbn. split; [auto|lia].
      + split; [lia|]. replace (0 - 0 + S) with S by lia. rewrite IH2. split; intros (r & Hi & Hb); exists r; auto.
        destruct Hi as [<-|]; cbn in *; [lia|auto]. }
  apply G; auto.
Qed.
