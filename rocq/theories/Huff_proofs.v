(* Huff_proofs.v - the invariant of the adaptive Huffman tree (Huff_model) and its preservation. *)
From Coq Require Import Permutation.
From Verif Require Import Base Base_lemmas BitRing_proofs Huff_model.
Import ListNotations.
Open Scope nat_scope.

(* ---- arrays ---- *)
Lemma nth_upd {A} (l : list A) i x j d : i < length l -> nth j (upd l i x) d = if j =? i then x else nth j l d.
Proof.
  revert i j; induction l as [|h l IH]; intros i j Hi; [cbn in Hi; lia|].
  destruct i, j; cbn [upd nth]; try reflexivity. cbn [length] in Hi. change (S j =? S i) with (j =? i). apply IH; lia.
Qed.
Lemma oset_ok {A} (l : list A) i x : i < length l -> oset l i x = Ok (upd l i x).
Proof. intros H; unfold oset. destruct (Nat.ltb_spec i (length l)); [reflexivity|lia]. Qed.
Lemma oindex_ok {A} (l : list A) i d : i < length l -> oindex l i = Ok (nth i l d).
Proof. intros H; unfold oindex. rewrite (nth_error_nth' l d H). reflexivity. Qed.
Lemma ofold_app {S A} (f : S -> A -> outcome S) a b s :
  ofold f (a ++ b) s = obind (ofold f a s) (fun s => ofold f b s).
Proof. revert s; induction a as [|x a IH]; intros s; cbn [ofold app obind]; [reflexivity|]. destruct (f s x); cbn [obind]; auto. Qed.
Lemma seq_snoc a n : seq a (S n) = seq a n ++ [a + n].
Proof. rewrite <- Nat.add_1_r, seq_app. reflexivity. Qed.
(* a `for i in a..a+n` loop with an invariant on the state *)
Lemma ofold_seq {T} (f : T -> nat -> outcome T) (I : nat -> T -> Prop) n s :
  I 0 s -> (forall i s, i < n -> I i s -> exists s', f s i = Ok s' /\ I (S i) s') ->
  exists s', ofold f (seq 0 n) s = Ok s' /\ I n s'.
Proof.
  intros H0 Hs. induction n as [|n IH]; [exists s; split; [reflexivity|exact H0]|].
  destruct IH as [s' [E Hn]]; [intros i s1 Hi; apply Hs; lia|].
  destruct (Hs n s' ltac:(lia) Hn) as [s'' [E2 H2]].
  exists s''. rewrite seq_snoc, ofold_app, E. cbn [obind ofold Nat.add]. rewrite E2. split; [reflexivity|exact H2].
Qed.
Lemma shift_up_ok {A} (v : list A) k l d : k + l < length v ->
  exists v', shift_up v k l = Ok v' /\ length v' = length v /\
    forall p, nth p v' d = if (k <? p) && (p <=? k + l) then nth (p - 1) v d else nth p v d.
Proof.
  unfold shift_up. revert v; induction l as [|l IH]; intros v H.
  - exists v. split; [reflexivity|split; [reflexivity|]]. intros p.
    destruct (Nat.ltb_spec k p), (Nat.leb_spec p (k + 0)); cbn [andb]; try reflexivity; lia.
  - rewrite seq_snoc, rev_app_distr. cbn [rev app ofold].
    rewrite (oindex_ok v (k + l) d) by lia. cbn [obind]. rewrite oset_ok by lia. cbn [obind].
    destruct (IH (upd v (k + l + 1) (nth (k + l) v d))) as [v' [E [L N']]]; [rewrite upd_length; lia|].
    exists v'. split; [exact E|]. split; [rewrite L; apply upd_length|].
    intros p. rewrite N'. rewrite !nth_upd by lia.
    destruct (Nat.ltb_spec k p), (Nat.leb_spec p (k + l)), (Nat.leb_spec p (k + S l)), (Nat.eqb_spec (p - 1) (k + l + 1)), (Nat.eqb_spec p (k + l + 1));
      cbn [andb]; try reflexivity; try lia; f_equal; lia.
Qed.

(* hides an implication from lia *)
Definition box (P : Prop) : Prop := P.

Section Tree.
Variable n : nat.
Notation nc := (2 * n - 1).
Notation root := (2 * n - 2).
Notation "l .[ i ]" := (nth i l 0) (at level 8, left associativity, format "l .[ i ]").
Notation "l .{ i }" := (nth i l 0%N) (at level 8, left associativity, format "l .{ i }").

(* The tree is well formed, except that the weight of node `x` is one below the sum of its sons' weights (x = nc: no exception). *)
Record ok (x : nat) (f : list N) (p s m : list nat) : Prop := mkOk {
  ok_n : 2 <= n;
  ok_lf : length f = 2 * n; ok_lp : length p = nc; ok_ls : length s = nc; ok_lm : length m = n;
  ok_sort : forall i, i < nc -> (f.{i} <= f.{i + 1})%N;
  ok_back : f.{nc} = 0xffff%N;
  ok_pos : forall i, i < nc -> (1 <= f.{i})%N;
  ok_leaf : forall i, i < nc -> nc <= s.[i] -> s.[i] < nc + n /\ m.[s.[i] - nc] = i;
  ok_inner : forall i, i < nc -> s.[i] < nc -> s.[i] + 1 < i /\ Nat.even s.[i] = true /\ p.[s.[i]] = i /\ p.[s.[i] + 1] = i;
  ok_sum : forall i, i < nc -> s.[i] < nc -> (f.{i} + (if (i =? x)%nat then 1 else 0) = f.{s.[i]} + f.{s.[i] + 1})%N;
  ok_map : forall y, y < n -> m.[y] < nc /\ s.[m.[y]] = nc + y;
  ok_par : forall i, i < root -> p.[i] < nc /\ s.[p.[i]] < nc /\ (s.[p.[i]] = i \/ s.[p.[i]] + 1 = i);
  ok_root : p.[root] = 0 }.

Lemma ok_mono x f p s m : ok x f p s m -> forall i j, i <= j -> j <= nc -> (f.{i} <= f.{j})%N.
Proof.
  intros H i j Hij Hj. induction Hij as [|j Hij IH]; [lia|].
  pose proof (ok_sort _ _ _ _ _ H j ltac:(lia)) as E. rewrite Nat.add_1_r in E. specialize (IH ltac:(lia)). lia.
Qed.
Lemma ok_up x f p s m i : ok x f p s m -> i < root -> i < p.[i] /\ p.[i] < nc.
Proof.
  intros H Hi. destruct (ok_par _ _ _ _ _ H i Hi) as [A [B C]]. destruct (ok_inner _ _ _ _ _ H _ A B) as [D _]. lia.
Qed.
Lemma ok_root_inner x f p s m : ok x f p s m -> s.[root] < nc.
Proof.
  intros H. pose proof (ok_n _ _ _ _ _ H) as Hn.
  destruct (ok_up _ _ _ _ _ (root - 1) H ltac:(lia)) as [A B].
  destruct (ok_par _ _ _ _ _ H (root - 1) ltac:(lia)) as [_ [C _]]. replace root with p.[root - 1] by lia. exact C.
Qed.
(* a node weighs less than its parent, provided the node is the only exception *)
Lemma ok_parent_heavier x f p s m i : ok x f p s m -> i < root -> p.[i] <> x -> (f.{i} < f.{p.[i]})%N.
Proof.
  intros H Hi Hx. destruct (ok_par _ _ _ _ _ H i Hi) as [A [B C]].
  destruct (ok_inner _ _ _ _ _ H _ A B) as [D _].
  pose proof (ok_sum _ _ _ _ _ H _ A B) as E. destruct (Nat.eqb_spec p.[i] x); [contradiction|].
  pose proof (ok_pos _ _ _ _ _ H s.[p.[i]] ltac:(lia)). pose proof (ok_pos _ _ _ _ _ H (s.[p.[i]] + 1) ltac:(lia)).
  destruct C as [C|C]; rewrite C in *; lia.
Qed.

Lemma back_search_ok f fr k lo : lo <= k -> k < length fr -> (fr.{lo} <= f)%N ->
  exists k', back_search f fr k = Ok k' /\ lo <= k' <= k /\ (fr.{k'} <= f)%N /\ (forall q, k' < q <= k -> (f < fr.{q})%N).
Proof.
  revert lo; induction k as [|k IH]; intros lo Hlo Hk Hf.
  - cbn [back_search]. rewrite (oindex_ok fr 0 0%N) by lia. cbn [obind].
    replace lo with 0 in Hf by lia. destruct (N.ltb_spec f (fr.{0})%N) as [|_]; [lia|].
    exists 0. split; [reflexivity|]. split; [lia|split; [exact Hf|intros; lia]].
  - cbn [back_search]. rewrite (oindex_ok fr (S k) 0%N) by lia. cbn [obind].
    destruct (N.ltb_spec f (fr.{S k})%N) as [C|C].
    + destruct (Nat.eq_dec lo (S k)) as [->|]; [lia|].
      destruct (IH lo ltac:(lia) ltac:(lia) Hf) as [k' [E [R [Q1 Q2]]]].
      exists k'. split; [exact E|]. split; [lia|]. split; [exact Q1|]. intros q Hq.
      destruct (Nat.eq_dec q (S k)) as [->|]; [exact C|apply Q2; lia].
    + exists (S k). split; [reflexivity|]. split; [lia|]. split; [exact C|intros; lia].
Qed.
Lemma fwd_search_ok k fr hi fuel l : l <= hi -> hi < length fr -> hi - l <= fuel -> (k <= fr.{hi})%N ->
  exists l', fwd_search fuel k fr l = Ok l' /\ l <= l' <= hi /\ (k <= fr.{l'})%N /\ (forall q, l <= q < l' -> (fr.{q} < k)%N).
Proof.
  revert l; induction fuel as [|fuel IH]; intros l Hl Hh Hf Hk; cbn [fwd_search]; rewrite (oindex_ok fr l 0%N) by lia; cbn [obind].
  - replace hi with l in Hk by lia. destruct (N.ltb_spec (fr.{l})%N k) as [|_]; [lia|].
    exists l. split; [reflexivity|]. split; [lia|split; [exact Hk|intros; lia]].
  - destruct (N.ltb_spec (fr.{l})%N k) as [C|C].
    + destruct (Nat.eq_dec l hi) as [->|]; [lia|].
      destruct (IH (S l) ltac:(lia) Hh ltac:(lia) Hk) as [l' [E [R [Q1 Q2]]]].
      exists l'. split; [exact E|]. split; [lia|]. split; [exact Q1|]. intros q Hq.
      destruct (Nat.eq_dec q l) as [->|]; [exact C|apply Q2; lia].
    + exists l. split; [reflexivity|]. split; [lia|]. split; [exact C|intros; lia].
Qed.

Lemma relink_ok p m x a : length p = nc -> length m = n -> (x < nc -> x + 1 < nc) -> x < nc + n ->
  exists p' m', relink nc (p, m) x a = Ok (p', m') /\ length p' = nc /\ length m' = n /\
    (forall i, p'.[i] = if (x <? nc) && ((i =? x) || (i =? x + 1)) then a else p.[i]) /\
    (forall y, m'.[y] = if (nc <=? x) && (y =? x - nc) then a else m.[y]).
Proof.
  intros Lp Lm H1 H2. unfold relink. destruct (Nat.ltb_spec x nc) as [C|C].
  - rewrite oset_ok by lia. cbn [obind]. rewrite oset_ok by (rewrite upd_length; lia). cbn [obind].
    eexists _, _. split; [reflexivity|]. rewrite !upd_length. split; [exact Lp|]. split; [exact Lm|]. split.
    + intros i. rewrite !nth_upd by (rewrite ?upd_length; lia).
      destruct (Nat.eqb_spec i (x + 1)), (Nat.eqb_spec i x); cbn [andb orb]; try reflexivity; lia.
    + intros y. destruct (Nat.leb_spec nc x); [lia|reflexivity].
  - rewrite oset_ok by lia. cbn [obind]. eexists _, _. split; [reflexivity|]. rewrite !upd_length.
    split; [exact Lp|]. split; [exact Lm|]. split; [reflexivity|].
    intros y. rewrite nth_upd by lia. destruct (Nat.leb_spec nc x); [|lia]. reflexivity.
Qed.

(* the weight of a symbol *)
Definition weight (f : list N) (m : list nat) (y : nat) : N := f.{m.[y]}.

Ltac nat_eqs := repeat match goal with
  | |- context [?a =? ?b] => destruct (Nat.eqb_spec a b) end.

(* One round at node c: nodes c and l of equal weight are exchanged and the weight of the one now at l grows by one. *)
Lemma update_node_ok f p s m c : ok c f p s m -> c < nc -> (f.{root} < h_max)%N ->
  exists f' p' s' m' l, update_node (mkHT n f p s m) c = Ok (mkHT n f' p' s' m', l) /\
    c <= l < nc /\ (l = root <-> c = root) /\ p'.[l] = p.[l] /\
    (f'.{root} = f.{root} + (if (c =? root)%nat then 1 else 0))%N /\
    ok (if c =? root then nc else p'.[l]) f' p' s' m' /\
    (forall y, y < n -> weight f' m' y = (weight f m y + (if (s.[c] =? nc + y)%nat then 1 else 0))%N).
Proof.
  intros H Hc Hr. unfold update_node, h_count, h_nsym, h_freq, h_son, h_parent, h_map.
  pose proof (ok_mono _ _ _ _ _ H) as Mono. pose proof (ok_back _ _ _ _ _ H) as Back.
  pose proof H as H'. destruct H' as [Hn Lf Lp Ls Lm Sort _ Pos Leaf Inner Sum Map Par Root].
  assert (Hcr : (f.{c} <= f.{root})%N) by (apply Mono; lia).
  rewrite (oindex_ok f c 0%N) by lia. cbn [obind]. rewrite oset_ok by lia. cbn [obind].
  rewrite (oindex_ok _ (c + 1) 0%N) by (rewrite upd_length; lia). cbn [obind].
  rewrite nth_upd by lia. destruct (Nat.eqb_spec (c + 1) c) as [|_]; [lia|].
  unfold h_max in Hr.
  destruct (N.ltb_spec (f.{c + 1})%N (f.{c} + 1)%N) as [C|C].
  - (* exchange *)
    assert (Hc1 : c < root).
    { destruct (Nat.eq_dec c root) as [->|]; [|lia]. replace (root + 1) with nc in C by lia. rewrite Back in C. lia. }
    destruct (fwd_search_ok (f.{c} + 1)%N (upd f c (f.{c} + 1)%N) nc (length (upd f c (f.{c} + 1)%N)) (c + 1)) as [l0 [E [Rl [Q1 Q2]]]].
    { lia. } { rewrite upd_length; lia. } { rewrite upd_length; lia. }
    { rewrite nth_upd by lia. destruct (Nat.eqb_spec nc c); [lia|]. rewrite Back. lia. }
    rewrite E. cbn [obind]. clear E.
    assert (Hl0 : c + 1 < l0).
    { destruct (Nat.eq_dec l0 (c + 1)) as [->|]; [|lia]. rewrite nth_upd in Q1 by lia. destruct (Nat.eqb_spec (c + 1) c); lia. }
    set (l := l0 - 1) in *. assert (Hl : c < l /\ l + 1 = l0) by (unfold l; lia).
    assert (Hfl : f.{l} = f.{c}).
    { assert (A : (f.{c} <= f.{l})%N) by (apply Mono; lia).
      specialize (Q2 l ltac:(lia)). rewrite nth_upd in Q2 by lia. destruct (Nat.eqb_spec l c); [lia|]. lia. }
    assert (Hfl1 : (f.{c} + 1 <= f.{l + 1})%N).
    { replace (l + 1) with l0 by lia. rewrite nth_upd in Q1 by lia. destruct (Nat.eqb_spec l0 c); lia. }
    assert (Hpc : p.[c] <> c /\ l < p.[c]).
    { destruct (ok_up _ _ _ _ _ c H Hc1) as [A B]. split; [lia|].
      pose proof (ok_parent_heavier _ _ _ _ _ c H Hc1 ltac:(lia)) as D.
      destruct (Nat.le_gt_cases p.[c] l) as [G|G]; [|exact G]. pose proof (Mono p.[c] l G ltac:(lia)). lia. }
    assert (Hl1 : l < root).
    { destruct (ok_up _ _ _ _ _ c H Hc1) as [A B]. lia. }
    assert (Hsl : box (s.[l] < nc -> s.[l] + 1 < c)).
    { intros A. destruct (Inner l ltac:(lia) A) as [B _]. pose proof (Sum l ltac:(lia) A) as D.
      destruct (Nat.eqb_spec l c); [lia|].
      pose proof (Pos s.[l] ltac:(lia)). pose proof (Pos (s.[l] + 1) ltac:(lia)).
      destruct (Nat.le_gt_cases c (s.[l] + 1)) as [G|G]; [|exact G]. pose proof (Mono c (s.[l] + 1) G ltac:(lia)). lia. }
    assert (Hsc : box (s.[c] < nc -> s.[c] + 1 < c)). { intros A. apply (Inner c ltac:(lia) A). }
    assert (Hneq : s.[c] <> s.[l] /\ box (s.[c] < nc -> s.[l] < nc -> s.[c] + 1 <> s.[l] /\ s.[l] + 1 <> s.[c])).
    { split.
      - intros A. destruct (Nat.lt_ge_cases s.[c] nc) as [B|B].
        + destruct (Inner c ltac:(lia) B) as [_ [_ [D _]]]. destruct (Inner l ltac:(lia) ltac:(lia)) as [_ [_ [D' _]]]. rewrite A in D. lia.
        + destruct (Leaf c ltac:(lia) B) as [_ D]. destruct (Leaf l ltac:(lia) ltac:(lia)) as [_ D']. rewrite A in D. lia.
      - intros A B. destruct (Inner c ltac:(lia) A) as [_ [_ [D D2]]]. destruct (Inner l ltac:(lia) B) as [_ [_ [D' D2']]].
        split; intros X; [rewrite <- X in D'|rewrite <- X in D]; lia. }
    assert (Hscn : s.[c] < nc + n). { destruct (Nat.lt_ge_cases s.[c] nc) as [B|B]; [lia|]. apply (Leaf c ltac:(lia) B). }
    assert (Hsln : s.[l] < nc + n). { destruct (Nat.lt_ge_cases s.[l] nc) as [B|B]; [lia|]. apply (Leaf l ltac:(lia) B). }
    rewrite (oindex_ok _ l 0%N) by (rewrite upd_length; lia). cbn [obind].
    rewrite (nth_upd f c _ l) by lia. destruct (Nat.eqb_spec l c) as [|_]; [lia|].
    rewrite oset_ok by (rewrite upd_length; lia). cbn [obind]. rewrite oset_ok by (rewrite !upd_length; lia). cbn [obind].
    rewrite (oindex_ok s c 0) by lia. cbn [obind].
    destruct (relink_ok p m s.[c] l Lp Lm ltac:(intros X; specialize (Hsc X); lia) Hscn) as [p1 [m1 [E1 [Lp1 [Lm1 [Vp1 Vm1]]]]]].
    rewrite E1. cbn [obind]. clear E1. rewrite (oindex_ok s l 0) by lia. cbn [obind]. rewrite oset_ok by lia. cbn [obind].
    destruct (relink_ok p1 m1 s.[l] c Lp1 Lm1 ltac:(intros X; specialize (Hsl X); lia) Hsln) as [p2 [m2 [E2 [Lp2 [Lm2 [Vp2 Vm2]]]]]].
    rewrite E2. cbn [obind]. clear E2. rewrite oset_ok by (rewrite upd_length; lia). cbn [obind].
    assert (Vf : forall i, nth i (upd (upd (upd f c (f.{c} + 1)%N) c f.{l}) l (f.{c} + 1)%N) 0%N = if i =? l then (f.{c} + 1)%N else f.{i}).
    { intros i. rewrite !nth_upd by (rewrite ?upd_length; lia). nat_eqs; subst; try reflexivity; congruence. }
    assert (Lf' : length (upd (upd (upd f c (f.{c} + 1)%N) c f.{l}) l (f.{c} + 1)%N) = 2 * n) by (rewrite !upd_length; exact Lf).
    assert (Vs : forall i, nth i (upd (upd s l s.[c]) c s.[l]) 0 = if i =? c then s.[l] else if i =? l then s.[c] else s.[i]).
    { intros i. rewrite !nth_upd by (rewrite ?upd_length; lia). reflexivity. }
    assert (Ls' : length (upd (upd s l s.[c]) c s.[l]) = nc) by (rewrite !upd_length; exact Ls).
    revert Vf Lf' Vs Ls'. generalize (upd (upd (upd f c (f.{c} + 1)%N) c f.{l}) l (f.{c} + 1)%N) (upd (upd s l s.[c]) c s.[l]).
    intros f' s' Vf Lf' Vs Ls'.
    assert (Vp : forall i, p2.[i] = if (s.[l] <? nc) && ((i =? s.[l]) || (i =? s.[l] + 1)) then c
                                    else if (s.[c] <? nc) && ((i =? s.[c]) || (i =? s.[c] + 1)) then l else p.[i]).
    { intros i. rewrite Vp2, Vp1. reflexivity. }
    assert (Vm : forall y, m2.[y] = if (nc <=? s.[l]) && (y =? s.[l] - nc) then c
                                    else if (nc <=? s.[c]) && (y =? s.[c] - nc) then l else m.[y]).
    { intros i. rewrite Vm2, Vm1. reflexivity. }
    assert (Pbig : forall i, c <= i -> p2.[i] = p.[i]).
    { intros i Hi. rewrite Vp. clear - Hi Hsl Hsc. unfold box in *. destruct (Nat.ltb_spec s.[l] nc) as [A|A], (Nat.ltb_spec s.[c] nc) as [B|B]; cbn [andb]; nat_eqs; cbn [orb]; try reflexivity; lia. }
    clear Vp1 Vm1 Vp2 Vm2 Lp1 Lm1 p1 m1 Q1 Q2 Hpc Hl0 Rl C Hcr. assert (Hcl : c < l) by (apply Hl). clear Hl. clearbody l. clear l0. destruct Hneq as [Hneq Hneq2].
    exists f', p2, s', m2, l.
    assert (Ecr : (c =? root) = false) by (apply Nat.eqb_neq; lia). rewrite Ecr.
    split; [reflexivity|]. split; [clear - Hcl Hl1; lia|]. split; [clear - Hc1 Hl1; lia|]. split; [apply Pbig; clear - Hcl; lia|].
    split. { rewrite Vf. clear - Hl1. destruct (Nat.eqb_spec root l); lia. }
    assert (Npl : p.[l] <> l /\ l < p.[l] /\ p.[l] < nc). { destruct (ok_up _ _ _ _ _ l H Hl1). lia. }
    split.
    + rewrite (Pbig l) by lia. constructor; auto.
      * intros i Hi. rewrite !Vf. pose proof (Sort i Hi) as A.
        clear - A Hfl Hfl1 Mono Hcl Hl1 Hi.
        destruct (Nat.eqb_spec i l) as [X|X]; destruct (Nat.eqb_spec (i + 1) l) as [B|B]; [lia| | |exact A].
        { rewrite X. exact Hfl1. }
        { rewrite <- Hfl, <- B. lia. }
      * rewrite Vf. destruct (Nat.eqb_spec nc l); [lia|]. exact Back.
      * intros i Hi. rewrite Vf. pose proof (Pos i Hi). nat_eqs; lia.
      * (* leaf *)
        intros i Hi. rewrite Vs. destruct (Nat.eqb_spec i c) as [->|].
        { intros A. split; [exact Hsln|]. rewrite Vm. destruct (Nat.leb_spec nc s.[l]); [|lia]. rewrite Nat.eqb_refl. reflexivity. }
        destruct (Nat.eqb_spec i l) as [->|].
        { intros A. split; [exact Hscn|]. rewrite Vm. destruct (Nat.leb_spec nc s.[c]); [|lia]. rewrite Nat.eqb_refl.
          destruct (Nat.leb_spec nc s.[l]); cbn [andb]; [|reflexivity].
          destruct (Nat.eqb_spec (s.[c] - nc) (s.[l] - nc)); [lia|reflexivity]. }
        intros A. destruct (Leaf i Hi A) as [B D]. split; [exact B|]. rewrite Vm.
        destruct (Nat.leb_spec nc s.[l]) as [G|G]; cbn [andb].
        { destruct (Nat.eqb_spec (s.[i] - nc) (s.[l] - nc)) as [X|].
          { rewrite X in D. destruct (Leaf l ltac:(lia) G) as [_ D2]. lia. }
          destruct (Nat.leb_spec nc s.[c]) as [G2|G2]; cbn [andb]; [|exact D].
          destruct (Nat.eqb_spec (s.[i] - nc) (s.[c] - nc)) as [X|]; [|exact D].
          rewrite X in D. destruct (Leaf c ltac:(lia) G2) as [_ D2]. lia. }
        destruct (Nat.leb_spec nc s.[c]) as [G2|G2]; cbn [andb]; [|exact D].
        destruct (Nat.eqb_spec (s.[i] - nc) (s.[c] - nc)) as [X|]; [|exact D].
        rewrite X in D. destruct (Leaf c ltac:(lia) G2) as [_ D2]. lia.
      * (* inner *)
        intros i Hi. rewrite Vs. destruct (Nat.eqb_spec i c) as [->|].
        { intros A. destruct (Inner l ltac:(lia) A) as [_ [Ev _]]. split; [apply Hsl; exact A|]. split; [exact Ev|].
          rewrite !Vp. destruct (Nat.ltb_spec s.[l] nc); [|lia]. cbn [andb].
          split; nat_eqs; cbn [orb]; try reflexivity; lia. }
        destruct (Nat.eqb_spec i l) as [->|].
        { intros A. destruct (Inner c ltac:(lia) A) as [_ [Ev _]]. split; [specialize (Hsc A); lia|]. split; [exact Ev|].
          rewrite !Vp. destruct (Nat.ltb_spec s.[c] nc); [|lia]. cbn [andb].
          destruct (Nat.ltb_spec s.[l] nc) as [B|B]; cbn [andb]; [destruct (Hneq2 A B)|]; split; nat_eqs; cbn [orb]; try reflexivity; lia. }
        intros A. destruct (Inner i Hi A) as [B [Ev [D1 D2]]]. split; [exact B|]. split; [exact Ev|].
        assert (Hd : forall z w, (z = c \/ z = l) -> s.[z] < nc -> (w = s.[i] \/ w = s.[i] + 1) -> w = s.[z] \/ w = s.[z] + 1 -> False).
        { intros z w Hz Hzn Hw Hw2. destruct (Inner z ltac:(lia) Hzn) as [_ [_ [G1 G2]]].
          assert (p.[w] = i) by (destruct Hw as [-> | ->]; assumption). assert (p.[w] = z) by (destruct Hw2 as [-> | ->]; assumption). lia. }
        assert (Ho : forall z w, (z = c \/ z = l) -> (w = s.[i] \/ w = s.[i] + 1) -> (s.[z] <? nc) && ((w =? s.[z]) || (w =? s.[z] + 1)) = false).
        { intros z w Hz Hw. destruct (Nat.ltb_spec s.[z] nc) as [G|G]; [|reflexivity]. cbn [andb].
          destruct (Nat.eqb_spec w s.[z]) as [X|X]; [exfalso; exact (Hd z w Hz G Hw (or_introl X))|].
          destruct (Nat.eqb_spec w (s.[z] + 1)) as [Y|Y]; [exfalso; exact (Hd z w Hz G Hw (or_intror Y))|]. reflexivity. }
        split.
        { rewrite Vp, (Ho l) by (auto; left; reflexivity). rewrite (Ho c) by (auto; left; reflexivity). exact D1. }
        { rewrite Vp, (Ho l) by (auto; right; reflexivity). rewrite (Ho c) by (auto; right; reflexivity). exact D2. }
      * (* sums *)
        intros i Hi. rewrite !Vs, !Vf. destruct (Nat.eqb_spec i c) as [->|].
        { intros A. specialize (Hsl A). pose proof (Sum l ltac:(lia) A) as D.
          destruct (Nat.eqb_spec l c); [lia|]. nat_eqs; lia. }
        destruct (Nat.eqb_spec i l) as [->|].
        { intros A. specialize (Hsc A). pose proof (Sum c ltac:(lia) A) as D. rewrite Nat.eqb_refl in D. nat_eqs; lia. }
        intros A. pose proof (Sum i Hi A) as D. destruct (Nat.eqb_spec i c); [contradiction|].
        destruct (Inner i Hi A) as [B [_ [D1 D2]]].
        destruct (Par l ltac:(lia)) as [P1 [P2 P3]].
        destruct (Nat.eqb_spec i p.[l]) as [->|].
        { destruct P3 as [P3|P3]; rewrite ?P3 in *; nat_eqs; try lia. }
        { destruct (Nat.eqb_spec s.[i] l) as [X|]; [exfalso; rewrite X in D1; lia|].
          destruct (Nat.eqb_spec (s.[i] + 1) l) as [X|]; [exfalso; rewrite X in D2; lia|]. lia. }
      * (* map *)
        intros y Hy. destruct (Map y Hy) as [B D]. rewrite Vm.
        destruct (Nat.leb_spec nc s.[l]) as [G|G]; cbn [andb].
        { destruct (Nat.eqb_spec y (s.[l] - nc)) as [X|].
          { split; [lia|]. rewrite Vs, Nat.eqb_refl. lia. }
          destruct (Nat.leb_spec nc s.[c]) as [G2|G2]; cbn [andb].
          { destruct (Nat.eqb_spec y (s.[c] - nc)) as [X|].
            { split; [lia|]. rewrite Vs, Nat.eqb_refl. destruct (Nat.eqb_spec l c); lia. }
            split; [exact B|]. rewrite Vs. nat_eqs; try exact D.
            - rewrite e in D. lia.
            - rewrite e in D. lia. }
          split; [exact B|]. rewrite Vs. nat_eqs; try exact D; rewrite e in D; lia. }
        destruct (Nat.leb_spec nc s.[c]) as [G2|G2]; cbn [andb].
        { destruct (Nat.eqb_spec y (s.[c] - nc)) as [X|].
          { split; [lia|]. rewrite Vs, Nat.eqb_refl. destruct (Nat.eqb_spec l c); lia. }
          split; [exact B|]. rewrite Vs. nat_eqs; try exact D; rewrite e in D; lia. }
        split; [exact B|]. rewrite Vs. nat_eqs; try exact D; rewrite e in D; lia.
      * (* parents *)
        intros i Hi. destruct (Par i Hi) as [P1 [P2 P3]]. rewrite Vp.
        assert (Hin : forall z, z < nc -> s.[z] < nc -> (s.[z] = i \/ s.[z] + 1 = i) -> p.[i] = z).
        { intros z Hz Hz2 Hz3. destruct (Inner z Hz Hz2) as [_ [_ [G1 G2]]]. destruct Hz3 as [<-|<-]; assumption. }
        destruct (Nat.eq_dec p.[i] l) as [X|X].
        { rewrite X in *. destruct (Nat.ltb_spec s.[l] nc) as [G|G]; [|lia]. cbn [andb].
          assert (Y : (i =? s.[l]) || (i =? s.[l] + 1) = true) by (nat_eqs; cbn [orb]; try reflexivity; lia). rewrite Y.
          split; [lia|]. rewrite Vs, Nat.eqb_refl. split; [exact P2|exact P3]. }
        assert (Y : (s.[l] <? nc) && ((i =? s.[l]) || (i =? s.[l] + 1)) = false).
        { destruct (Nat.ltb_spec s.[l] nc) as [G|G]; [|reflexivity]. cbn [andb].
          destruct (Nat.eqb_spec i s.[l]); [exfalso; apply X; apply Hin; lia|]. destruct (Nat.eqb_spec i (s.[l] + 1)); [exfalso; apply X; apply Hin; lia|]. reflexivity. }
        rewrite Y. destruct (Nat.eq_dec p.[i] c) as [X2|X2].
        { rewrite X2 in *. destruct (Nat.ltb_spec s.[c] nc) as [G|G]; [|lia]. cbn [andb].
          assert (Y2 : (i =? s.[c]) || (i =? s.[c] + 1) = true) by (nat_eqs; cbn [orb]; try reflexivity; lia). rewrite Y2.
          split; [lia|]. rewrite Vs, Nat.eqb_refl. destruct (Nat.eqb_spec l c); [lia|]. split; [exact P2|exact P3]. }
        assert (Y2 : (s.[c] <? nc) && ((i =? s.[c]) || (i =? s.[c] + 1)) = false).
        { destruct (Nat.ltb_spec s.[c] nc) as [G|G]; [|reflexivity]. cbn [andb].
          destruct (Nat.eqb_spec i s.[c]); [exfalso; apply X2; apply Hin; lia|]. destruct (Nat.eqb_spec i (s.[c] + 1)); [exfalso; apply X2; apply Hin; lia|]. reflexivity. }
        rewrite Y2. split; [exact P1|]. rewrite Vs. nat_eqs; try contradiction. split; [exact P2|exact P3].
      * rewrite Pbig by lia. exact Root.
    + intros y Hy. unfold weight. destruct (Map y Hy) as [B D]. rewrite Vm, Vf.
      destruct (Nat.leb_spec nc s.[l]) as [G|G]; cbn [andb].
      { destruct (Nat.eqb_spec y (s.[l] - nc)) as [X|].
        { destruct (Nat.eqb_spec c l); [lia|]. destruct (Leaf l ltac:(lia) G) as [_ Z]. rewrite <- X in Z. rewrite Z.
          destruct (Nat.eqb_spec s.[c] (nc + y)); lia. }
        destruct (Nat.leb_spec nc s.[c]) as [G2|G2]; cbn [andb].
        { destruct (Nat.eqb_spec y (s.[c] - nc)) as [X|].
          { rewrite Nat.eqb_refl. destruct (Leaf c ltac:(lia) G2) as [_ Z]. rewrite <- X in Z. rewrite Z. destruct (Nat.eqb_spec s.[c] (nc + y)); lia. }
          destruct (Nat.eqb_spec m.[y] l) as [Z|]; [rewrite Z in D; lia|]. destruct (Nat.eqb_spec s.[c] (nc + y)); lia. }
        destruct (Nat.eqb_spec m.[y] l) as [Z|]; [rewrite Z in D; lia|]. destruct (Nat.eqb_spec s.[c] (nc + y)); lia. }
      destruct (Nat.leb_spec nc s.[c]) as [G2|G2]; cbn [andb].
      { destruct (Nat.eqb_spec y (s.[c] - nc)) as [X|].
        { rewrite Nat.eqb_refl. destruct (Leaf c ltac:(lia) G2) as [_ Z]. rewrite <- X in Z. rewrite Z. destruct (Nat.eqb_spec s.[c] (nc + y)); lia. }
        destruct (Nat.eqb_spec m.[y] l) as [Z|]; [rewrite Z in D; lia|]. destruct (Nat.eqb_spec s.[c] (nc + y)); lia. }
      destruct (Nat.eqb_spec m.[y] l) as [Z|]; [rewrite Z in D; lia|]. destruct (Nat.eqb_spec s.[c] (nc + y)); lia.
  - (* no exchange *)
    exists (upd f c (f.{c} + 1)%N), p, s, m, c.
    split; [reflexivity|]. split; [lia|]. split; [lia|]. split; [reflexivity|].
    assert (Vf : forall i, nth i (upd f c (f.{c} + 1)%N) 0%N = if i =? c then (f.{c} + 1)%N else f.{i}) by (intros i; rewrite nth_upd by lia; reflexivity).
    assert (Lf' : length (upd f c (f.{c} + 1)%N) = 2 * n) by (rewrite upd_length; exact Lf).
    revert Vf Lf'. generalize (upd f c (f.{c} + 1)%N). intros f' Vf Lf'.
    split. { rewrite Vf. destruct (Nat.eqb_spec root c) as [X|]; destruct (Nat.eqb_spec c root); try lia. rewrite X. reflexivity. }
    split.
    + constructor; auto.
      * intros i Hi. rewrite !Vf. pose proof (Sort i Hi) as A. destruct (Nat.eqb_spec i c) as [->|]; nat_eqs; try lia. subst. lia.
      * rewrite Vf. destruct (Nat.eqb_spec nc c); [lia|]. exact Back.
      * intros i Hi. rewrite Vf. pose proof (Pos i Hi). nat_eqs; lia.
      * intros i Hi A. destruct (Inner i Hi A) as [B [_ [D1 D2]]]. pose proof (Sum i Hi A) as D. rewrite !Vf.
        destruct (Nat.eqb_spec c root) as [R|R].
        { destruct (Nat.eqb_spec i nc); [lia|]. destruct (Nat.eqb_spec s.[i] c); [lia|]. destruct (Nat.eqb_spec (s.[i] + 1) c); [lia|].
          destruct (Nat.eqb_spec i c) as [X|X]; [rewrite <- X|]; lia. }
        destruct (Par c ltac:(lia)) as [P1 [P2 P3]].
        destruct (ok_up _ _ _ _ _ c H ltac:(lia)) as [U _].
        destruct (Nat.eqb_spec i p.[c]) as [X|X].
        { subst i. destruct (Nat.eqb_spec p.[c] c); [lia|]. destruct P3 as [P3|P3]; rewrite ?P3 in *.
          - rewrite Nat.eqb_refl. destruct (Nat.eqb_spec (c + 1) c); lia.
          - rewrite Nat.eqb_refl. destruct (Nat.eqb_spec s.[p.[c]] c); lia. }
        destruct (Nat.eqb_spec s.[i] c) as [Y|Y]; [rewrite Y in D1; congruence|].
        destruct (Nat.eqb_spec (s.[i] + 1) c) as [Y2|Y2]; [rewrite Y2 in D2; congruence|].
        destruct (Nat.eqb_spec i c) as [Z|Z]; [rewrite <- Z|]; lia.
    + intros y Hy. unfold weight. destruct (Map y Hy) as [B D]. rewrite Vf.
      destruct (Nat.eqb_spec m.[y] c) as [X|]; [rewrite X in *; rewrite D, Nat.eqb_refl; lia|].
      destruct (Nat.eqb_spec s.[c] (nc + y)) as [X|]; [|lia].
      destruct (Leaf c Hc ltac:(lia)) as [_ Z]. replace (s.[c] - nc) with y in Z by lia. contradiction.
Qed.
End Tree.
