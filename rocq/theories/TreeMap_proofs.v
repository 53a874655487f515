(* TreeMap_proofs.v *)
From Verif Require Import Base Base_lemmas TreeMap_model TreeMap_spec.
From Coq Require Import Permutation.

Definition build {T} (root : T) (h : list (nat * T)) : outcome (tree T) :=
  ofold (fun t pd => omap fst (tree_add_child t (fst pd) (snd pd))) h (tree_new root).

Section P.
Context {T : Type}.
Implicit Types (h : list (nat * T)) (t : tree T).

(* tree t is the tree of history h *)
Definition rep (root : T) h t : Prop :=
  good_history h /\ length t = S (length h) /\
  forall i, i <= length h -> exists n, nth_error t i = Some n /\ nd_index n = i /\
    nd_parent n = match parent_of h i with Some p => p | None => 0 end /\
    nd_children n = kids h i /\ data_of root h i = Some (nd_data n).

Lemma parent_of_snoc h x i : i <= length h -> parent_of (h ++ [x]) i = parent_of h i.
Proof. intros H. destruct i as [|j]; auto. cbn [parent_of]. rewrite nth_error_app1 by lia. reflexivity. Qed.
Lemma parent_of_new h x : parent_of (h ++ [x]) (S (length h)) = Some (fst x).
Proof. cbn [parent_of]. rewrite nth_error_app2, Nat.sub_diag by lia. reflexivity. Qed.
Lemma parent_lt h i p : good_history h -> parent_of h i = Some p -> p < i /\ i <= length h.
Proof.
  intros G. destruct i as [|j]; cbn [parent_of]; [discriminate|].
  destruct (nth_error h j) as [[q d]|] eqn:E; cbn [option_map fst]; [|discriminate]. intros [= ->].
  pose proof (G j p d E). assert (j < length h) by (apply nth_error_Some; congruence). lia.
Qed.
Lemma in_kids h p i : In i (kids h p) <-> 1 <= i <= length h /\ parent_of h i = Some p.
Proof.
  unfold kids. rewrite filter_In, in_seq. split.
  - intros [H1 H2]. split; [lia|]. destruct (parent_of h i) as [q|]; [|discriminate]. f_equal. apply Nat.eqb_eq; auto.
  - intros [H1 ->]. split; [lia|apply Nat.eqb_refl].
Qed.
Lemma NoDup_kids h p : NoDup (kids h p).
Proof. apply NoDup_filter, seq_NoDup. Qed.
Lemma kids_snoc h q d i : kids (h ++ [(q, d)]) i = kids h i ++ (if q =? i then [S (length h)] else []).
Proof.
  unfold kids. rewrite app_length. cbn [length]. rewrite Nat.add_1_r, seq_S, filter_app. f_equal.
  - apply filter_ext_in. intros a Ha. apply in_seq in Ha. rewrite parent_of_snoc by lia. reflexivity.
  - cbn [filter]. change (1 + length h) with (S (length h)). rewrite parent_of_new. cbn [fst].
    destruct (q =? i); reflexivity.
Qed.
Lemma kids_beyond h i : good_history h -> length h < i -> kids h i = [].
Proof.
  intros G Hi. destruct (kids h i) as [|x l] eqn:E; auto.
  assert (H : In x (kids h i)) by (rewrite E; left; auto).
  apply in_kids in H as [H1 H2]. apply parent_lt in H2; auto. lia.
Qed.

Lemma rep_new (root : T) : rep root [] (tree_new root).
Proof.
  split; [intros [|j] p d H; discriminate|].
  split; [reflexivity|]. intros i Hi. cbn [length] in Hi. assert (i = 0) by lia. subst i.
  eexists. split; [reflexivity|]. repeat split.
Qed.
Lemma rep_add root h t p d : rep root h t ->
  (p <= length h -> exists t', tree_add_child t p d = Ok (t', S (length h)) /\ rep root (h ++ [(p, d)]) t') /\
  (length h < p -> tree_add_child t p d = Panic).
Proof.
  intros (G & Hl & Hr). split; intros Hp.
  - destruct (Hr p Hp) as (n & Hn & Hi & Hpa & Hc & Hd).
    unfold tree_add_child. rewrite Hn. eexists. rewrite Hl. split; [reflexivity|].
    split; [|split].
    + intros j q e E. destruct (Nat.ltb_spec j (length h)).
      * rewrite nth_error_app1 in E by lia. eapply G; eauto.
      * rewrite nth_error_app2 in E by lia. destruct (j - length h) as [|k] eqn:Ek; [|destruct k; discriminate].
        injection E as <- <-. lia.
    + rewrite !app_length, upd_length; cbn [length]; lia.
    + intros i Hi'. rewrite app_length in Hi'. cbn [length] in Hi'.
      destruct (Nat.eq_dec i (S (length h))) as [->|Hne].
      * eexists. split; [rewrite nth_error_app2 by (rewrite upd_length; lia);
          rewrite upd_length, Hl, Nat.sub_diag; reflexivity|].
        cbn [nd_index nd_parent nd_children nd_data]. rewrite parent_of_new, kids_snoc, kids_beyond by (auto; lia).
        destruct (Nat.eqb_spec p (S (length h))); [lia|]. repeat split.
        cbn [data_of]. rewrite nth_error_app2, Nat.sub_diag by lia. reflexivity.
      * destruct (Hr i ltac:(lia)) as (m & Hm & Hmi & Hmp & Hmc & Hmd).
        assert (Hdat : data_of root (h ++ [(p, d)]) i = data_of root h i).
        { destruct i as [|j]; auto. cbn [data_of]. rewrite nth_error_app1 by lia. reflexivity. }
        destruct (Nat.eq_dec i p) as [->|Hip].
        -- eexists. split; [rewrite nth_error_app1 by (rewrite upd_length; lia); apply nth_error_upd_same; lia|].
           cbn [nd_index nd_parent nd_children nd_data].
           rewrite parent_of_snoc, kids_snoc, Nat.eqb_refl, Hdat by lia. rewrite Hc. auto.
        -- exists m. split; [rewrite nth_error_app1 by (rewrite upd_length; lia); rewrite nth_error_upd_other by auto; auto|].
           rewrite parent_of_snoc, kids_snoc, Hdat by lia.
           destruct (Nat.eqb_spec p i); [congruence|]. rewrite app_nil_r. auto.
  - unfold tree_add_child. rewrite (proj2 (nth_error_None t p)) by lia. reflexivity.
Qed.

Lemma good_snoc_inv h x : good_history (h ++ [x]) -> good_history h /\ fst x <= length h.
Proof.
  intros G. split.
  - intros j p d E. apply (G j p d). rewrite nth_error_app1; auto. apply nth_error_Some; congruence.
  - destruct x as [p d]. apply (G (length h) p d). rewrite nth_error_app2, Nat.sub_diag by lia. reflexivity.
Qed.
Lemma ofold_app {S A} (f : S -> A -> outcome S) l1 l2 s :
  ofold f (l1 ++ l2) s = let! s' := ofold f l1 s in ofold f l2 s'.
Proof.
  revert s; induction l1 as [|a l1 IH]; intros s; cbn [app ofold obind]; auto.
  destruct (f s a); cbn [obind]; auto.
Qed.
Lemma build_spec root h :
  (good_history h -> exists t, build root h = Ok t /\ rep root h t) /\
  (~ good_history h -> build root h = Panic).
Proof.
  unfold build. induction h as [|[p d] h IH] using rev_ind.
  - split; intros H.
    + eexists; split; [reflexivity|apply rep_new].
    + exfalso; apply H. intros [|j] p d E; discriminate.
  - rewrite ofold_app. cbn [ofold fst snd].
    assert (Dec : good_history h \/ ~ good_history h).
    { clear. induction h as [|[p d] h IH] using rev_ind; [left; intros [|j] p d E; discriminate|].
      destruct IH as [G|G].
      - destruct (Nat.leb_spec p (length h)) as [Hp|Hp].
        + left. intros j q e E. destruct (Nat.ltb_spec j (length h)).
          * rewrite nth_error_app1 in E by lia. eapply G; eauto.
          * rewrite nth_error_app2 in E by lia. destruct (j - length h) as [|k] eqn:Ek; [|destruct k; discriminate].
            injection E as <- <-. lia.
        + right. intros G'. apply good_snoc_inv in G' as [_ G']. cbn [fst] in G'. lia.
      - right. intros G'. apply good_snoc_inv in G' as [G' _]. auto. }
    destruct IH as [IH1 IH2]. split; intros H.
    + apply good_snoc_inv in H as [G Hp]. cbn [fst] in Hp. destruct (IH1 G) as (t & -> & R). cbn [obind].
      destruct (proj1 (rep_add root h t p d R) Hp) as (t' & -> & R'). exists t'. split; [reflexivity|exact R'].
    + destruct Dec as [G|G].
      * destruct (IH1 G) as (t & -> & R). cbn [obind].
        destruct (Nat.leb_spec p (length h)) as [Hp|Hp].
        -- exfalso; apply H. destruct (proj1 (rep_add root h t p d R) Hp) as (t' & _ & R'). apply R'.
        -- rewrite (proj2 (rep_add root h t p d R) Hp). reflexivity.
      * rewrite (IH2 G). reflexivity.
Qed.

(* descendants *)
Inductive desc h (a : nat) : nat -> Prop :=
| desc_refl : desc h a a
| desc_step j p : parent_of h j = Some p -> desc h a p -> desc h a j.
Lemma desc_ge h a j : good_history h -> desc h a j -> a <= j.
Proof. intros G. induction 1 as [|j p Hp _ IH]; auto. apply parent_lt in Hp; auto. lia. Qed.
Lemma desc_child h a c j : parent_of h c = Some a -> desc h c j -> desc h a j.
Proof. intros Hc. induction 1 as [|j p Hp _ IH]; eapply desc_step; eauto. constructor. Qed.
Lemma desc_inv_child h a j : desc h a j -> j = a \/ exists c, parent_of h c = Some a /\ desc h c j.
Proof.
  induction 1 as [|j p Hp _ IH]; auto. right. destruct IH as [->|(c & Hc & Hd)].
  - exists j. split; auto. constructor.
  - exists c. split; auto. eapply desc_step; eauto.
Qed.
Lemma desc_chain h a b j : good_history h -> desc h a j -> desc h b j -> a <= b -> desc h a b.
Proof.
  intros G Ha Hb. revert a Ha. induction Hb as [|j p Hp Hb IH]; intros a Ha Hab; auto.
  apply IH; auto. inversion Ha as [|j' p' Hp' Ha']; subst.
  - exfalso. apply (desc_ge h b p G) in Hb. apply parent_lt in Hp; auto. lia.
  - congruence.
Qed.
Lemma desc_siblings h a b p j : good_history h -> parent_of h a = Some p -> parent_of h b = Some p ->
  desc h a j -> desc h b j -> a = b.
Proof.
  intros G Ha Hb Da Db.
  assert (X : forall a b, parent_of h a = Some p -> parent_of h b = Some p -> desc h a j -> desc h b j -> a <= b -> a = b).
  { clear - G. intros a b Ha Hb Da Db Hab. pose proof (desc_chain h a b j G Da Db Hab) as D.
    inversion D as [|j' p' Hp' D']; subst; auto.
    rewrite Hb in Hp'. injection Hp' as <-. apply (desc_ge h a p G) in D'. apply parent_lt in Ha; auto. lia. }
  destruct (Nat.le_ge_cases a b) as [H|H]; [apply X; auto|symmetry; apply X; auto].
Qed.
Lemma desc_root h j : good_history h -> j <= length h -> desc h 0 j.
Proof.
  intros G. induction (lt_wf j) as [j _ IH]. intros Hj. destruct j as [|k]; [constructor|].
  destruct (nth_error h k) as [[p d]|] eqn:E; [|apply nth_error_None in E; lia].
  assert (Hp : parent_of h (S k) = Some p) by (cbn [parent_of]; rewrite E; reflexivity).
  pose proof (parent_lt h _ _ G Hp). eapply desc_step; eauto. apply IH; lia.
Qed.

(* the traversal *)
Lemma rec_spec root h t : rep root h t -> forall fuel i visited calls,
  i <= length h -> length h < fuel + i ->
  (forall j, desc h i j -> ~ In j visited) ->
  exists l, for_each_rec fuel t i (visited, calls) =
      Ok (rev (map fst l) ++ visited, calls ++ l) /\
    walk h i (map fst l) /\ NoDup (map fst l) /\ (forall j, In j (map fst l) <-> desc h i j) /\
    (forall j d, In (j, d) l -> data_of root h j = Some d).
Proof.
  intros (G & Hl & Hr). induction fuel as [|fuel IH]; intros i visited calls Hi Hf Hv; [lia|].
  cbn [for_each_rec].
  assert (Hnv : existsb (Nat.eqb i) visited = false).
  { apply not_true_is_false. intros E. apply existsb_exists in E as (x & Hx & E). apply Nat.eqb_eq in E. subst x.
    apply (Hv i); auto. constructor. }
  rewrite Hnv. destruct (Hr i Hi) as (n & Hn & _ & _ & Hc & Hd). unfold oindex. rewrite Hn. cbn [obind]. rewrite Hc.
  (* the loop over the children *)
  assert (L : forall cs vis cal, NoDup cs -> (forall c, In c cs -> parent_of h c = Some i) ->
     (forall c j, In c cs -> desc h c j -> ~ In j vis) ->
     exists ls l, ofold (fun s c => for_each_rec fuel t c s) cs (vis, cal) = Ok (rev (map fst l) ++ vis, cal ++ l) /\
       Forall2 (walk h) cs ls /\ map fst l = concat ls /\ NoDup (map fst l) /\
       (forall j, In j (map fst l) <-> exists c, In c cs /\ desc h c j) /\
       (forall j d, In (j, d) l -> data_of root h j = Some d)).
  { induction cs as [|c cs IHc]; intros vis cal ND Hp Hd'.
    - exists [], []. cbn [ofold map rev app concat]. rewrite app_nil_r. repeat split; try constructor.
      + intros [].
      + intros (c & [] & _).
      + intros j d [].
    - inversion ND as [|? ? Hnin ND']; subst.
      assert (Pc : parent_of h c = Some i) by (apply Hp; left; auto).
      destruct (parent_lt h c i G Pc) as [Pc1 Pc2].
      destruct (IH c vis cal) as (l1 & E1 & W1 & N1 & D1 & A1); [lia|lia|intros j Hj; apply (Hd' c j); [left; auto|auto]|].
      cbn [ofold]. rewrite E1. cbn [obind].
      destruct (IHc (rev (map fst l1) ++ vis) (cal ++ l1)) as (ls & l2 & E2 & W2 & M2 & N2 & D2 & A2); auto.
      { intros c' Hc'. apply Hp; right; auto. }
      { intros c' j Hc' Hj Hin. apply in_app_or in Hin as [Hin|Hin].
        - apply in_rev, D1 in Hin.
          assert (c = c') by (apply (desc_siblings h c c' i j G); auto; apply Hp; right; auto). subst c'. auto.
        - apply (Hd' c' j); auto. right; auto. }
      exists (map fst l1 :: ls), (l1 ++ l2). rewrite E2. split; [|split; [|split; [|split; [|split]]]].
      + rewrite map_app, rev_app_distr, !app_assoc. reflexivity.
      + constructor; auto.
      + rewrite map_app, M2. reflexivity.
      + rewrite map_app. clear - N1 N2 D1 D2 G Pc Hp Hnin.
        assert (Hdis : forall j, In j (map fst l1) -> ~ In j (map fst l2)).
        { intros j H1 H2. apply D1 in H1. apply D2 in H2 as (c' & Hc' & H2).
          assert (c = c') by (apply (desc_siblings h c c' i j G); auto; apply Hp; right; auto). subst; auto. }
        revert Hdis N1. generalize (map fst l1). induction l as [|x l IHl]; intros Hdis N1; auto.
        cbn [app]. inversion N1; subst. constructor.
        * rewrite in_app_iff. intros [?|?]; auto. apply (Hdis x); [left; auto|auto].
        * apply IHl; auto. intros j Hj. apply Hdis; right; auto.
      + intros j. rewrite map_app, in_app_iff, D1, D2. split.
        * intros [H|(c' & H1 & H2)]; [exists c; split; [left|]; auto|exists c'; split; [right|]; auto].
        * intros (c' & [<-|H1] & H2); [left; auto|right; exists c'; auto].
      + intros j d Hin. apply in_app_or in Hin as [?|?]; auto. }
  destruct (L (kids h i) (i :: visited) (calls ++ [(i, nd_data n)])) as (ls & l & E & W & M & N & D & A).
  - apply NoDup_kids.
  - intros c Hc'. apply in_kids in Hc'. tauto.
  - intros c j Hc' Hj Hin. apply in_kids in Hc' as [_ Hc'].
    destruct (parent_lt h c i G Hc') as [Pc1 _]. pose proof (desc_ge h c j G Hj).
    destruct Hin as [<-|Hin]; [lia|]. apply (Hv j); auto. apply (desc_child h i c j); auto.
  - exists ((i, nd_data n) :: l). rewrite E. cbn [map fst rev]. split; [|split; [|split; [|split]]].
    + rewrite <- !app_assoc. reflexivity.
    + rewrite M. constructor; auto.
    + constructor; auto. intros Hin. apply D in Hin as (c & Hc' & Hj). apply in_kids in Hc' as [_ Hc'].
      destruct (parent_lt h c i G Hc'). pose proof (desc_ge h c i G Hj). lia.
    + intros j. cbn [In]. rewrite D. split.
      * intros [<-|(c & Hc' & Hj)]; [constructor|]. apply in_kids in Hc' as [_ Hc']. apply (desc_child h i c j); auto.
      * intros Hj. apply desc_inv_child in Hj as [->|(c & Hc' & Hj)]; auto. right. exists c. split; auto.
        apply in_kids. split; auto. apply parent_lt in Hc'; auto. lia.
    + intros j d [[= <- <-]|Hin]; auto.
Qed.

Lemma for_each_spec root h t : rep root h t ->
  exists l, for_each t = Ok l /\ walk h 0 (map fst l) /\
    Permutation (map fst l) (seq 0 (S (length h))) /\
    (forall j d, In (j, d) l -> data_of root h j = Some d).
Proof.
  intros R. pose proof R as (G & Hl & _).
  destruct (rec_spec root h t R (S (length t)) 0 [] []) as (l & E & W & N & D & A); [lia|lia|intros j _ []|].
  exists l. unfold for_each. rewrite E. cbn [obind omap snd app]. repeat split; auto.
  apply NoDup_Permutation; auto; [apply seq_NoDup|].
  intros j. rewrite D, in_seq. split.
  - intros Hd. inversion Hd as [|j' p Hp _]; subst; [lia|]. apply parent_lt in Hp; auto. lia.
  - intros Hj. apply desc_root; auto; lia.
Qed.

(* cursors *)
Definition cursor_step (c : cursor T) (o : cursor_op T) : outcome (cursor T) :=
  match o with CChild d => cursor_add_child c d | CSibling d => cursor_add_sibling c d | CUp => cursor_up c end.
Definition at_parent h (c : cursor T) : Prop :=
  cu_current c <= length h /\ cu_parent c = match parent_of h (cu_current c) with Some p => p | None => 0 end.
Lemma cursor_step_spec root h c o : rep root h (cu_tree c) -> at_parent h c ->
  exists c' h', cursor_step c o = Ok c' /\ rep root h' (cu_tree c') /\ at_parent h' c' /\
    match o with
    | CChild d => h' = h ++ [(cu_current c, d)] /\ cu_current c' = S (length h)
    | CSibling d => h' = h ++ [(cu_parent c, d)] /\ cu_current c' = S (length h)
    | CUp => h' = h /\ cu_current c' = cu_parent c
    end.
Proof.
  intros R [Hc Hp]. pose proof R as (G & Hl & Hr).
  assert (Hpl : cu_parent c <= length h).
  { rewrite Hp. destruct (parent_of h (cu_current c)) eqn:E; [|lia]. apply parent_lt in E; auto. lia. }
  destruct o as [d|d|]; cbn [cursor_step]; unfold cursor_add_child, cursor_add_sibling, cursor_up, tree_node, oindex.
  - destruct (proj1 (rep_add root h (cu_tree c) (cu_current c) d R) Hc) as (t' & -> & R'). cbn [obind].
    do 2 eexists. split; [reflexivity|]. cbn [cu_tree cu_current]. split; [exact R'|]. split; [|auto].
    split; cbn [cu_current cu_parent]; [rewrite app_length; cbn [length]; lia|]. rewrite parent_of_new. reflexivity.
  - destruct (proj1 (rep_add root h (cu_tree c) (cu_parent c) d R) Hpl) as (t' & -> & R'). cbn [obind].
    do 2 eexists. split; [reflexivity|]. cbn [cu_tree cu_current]. split; [exact R'|]. split; [|auto].
    split; cbn [cu_current cu_parent]; [rewrite app_length; cbn [length]; lia|]. rewrite parent_of_new. reflexivity.
  - destruct (Hr _ Hpl) as (n & -> & Hi & Hpa & _). cbn [obind].
    do 2 eexists. split; [reflexivity|]. cbn [cu_tree cu_current]. split; [exact R|]. split; [|auto].
    split; cbn [cu_current cu_parent]; [lia|]. rewrite Hi. exact Hpa.
Qed.
Lemma cursor_run_spec root ops : forall h c, rep root h (cu_tree c) -> at_parent h c ->
  exists c' h', ofold cursor_step ops c = Ok c' /\ rep root h' (cu_tree c') /\ at_parent h' c'.
Proof.
  induction ops as [|o ops IH]; intros h c R A; cbn [ofold]; [eauto|].
  destruct (cursor_step_spec root h c o R A) as (c1 & h1 & -> & R1 & A1 & _). cbn [obind]. eapply IH; eauto.
Qed.
End P.
