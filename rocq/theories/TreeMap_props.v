(* TreeMap_props.v - C32: tree map traversal. *)
From Verif Require Import Base Base_lemmas TreeMap_model TreeMap_spec TreeMap_proofs.
From Coq Require Import Permutation.

(* Any history of add_child calls on existing parents succeeds and gives a tree whose traversal calls
   the callback once for every node, in depth-first order with parents before children and children
   in insertion order, passing each node's own data. *)
Theorem C32_traversal : forall (T : Type) (root : T) (h : list (nat * T)), good_history h ->
  exists t l, build root h = Ok t /\ for_each t = Ok l /\
    walk h 0 (map fst l) /\ Permutation (map fst l) (seq 0 (S (length h))) /\
    (forall j d, In (j, d) l -> data_of root h j = Some d).
Proof.
  intros T root h G. destruct (proj1 (build_spec root h) G) as (t & E & R).
  destruct (for_each_spec root h t R) as (l & E' & W & P & A). exists t, l. auto.
Qed.
(* root with children 1, 3 and grandchildren 2, 4 below 1 *)
Example C32_traversal_ex :
  let h := [(0, 10); (1, 20); (0, 30); (1, 40)] in
  good_history h /\ exists t, build 0 h = Ok t /\ for_each t = Ok [(0, 0); (1, 10); (2, 20); (4, 40); (3, 30)].
Proof.
  cbn zeta. split; [intros [|[|[|[|j]]]] p d H; cbn in H; try (injection H as <- <-; lia); destruct j; discriminate|].
  eexists; split; vm_compute; reflexivity.
Qed.

(* The traversal order is determined by the history. *)
Theorem C32_order_unique : forall (T : Type) (h : list (nat * T)) l1 l2, good_history h ->
  walk h 0 l1 -> walk h 0 l2 -> l1 = l2.
Proof.
  intros T h l1 l2 G.
  assert (X : forall n i l1 l2, length h < n + i -> walk h i l1 -> walk h i l2 -> l1 = l2).
  { clear l1 l2. induction n as [|n IH]; intros i l1 l2 Hn W1 W2.
    - inversion W1 as [i1 ls1 F1]; inversion W2 as [i2 ls2 F2]; subst.
      rewrite kids_beyond in F1, F2 by (auto; lia). inversion F1; inversion F2; reflexivity.
    - inversion W1 as [i1 ls1 F1]; inversion W2 as [i2 ls2 F2]; subst. f_equal. f_equal.
      assert (K : forall c, In c (kids h i) -> i < c).
      { intros c Hc. apply in_kids in Hc as [_ Hc]. apply parent_lt in Hc; auto. lia. }
      clear W1 W2. revert K ls2 F2. induction F1 as [|c x cs xs Wc F1 IHF]; intros K ls2 F2; inversion F2; subst; auto.
      f_equal.
      + apply (IH c); auto. specialize (K c (or_introl eq_refl)). lia.
      + apply IHF; auto. intros; apply K; right; auto. }
  apply (X (S (length h))). lia.
Qed.

(* Adding below a node that does not exist panics. *)
Theorem C32_bad_parent : forall (T : Type) (root : T) (h : list (nat * T)),
  ~ good_history h -> build root h = Panic.
Proof. intros T root h. apply (build_spec root h). Qed.
Example C32_bad_parent_ex : build 0 [(1, 5)] = Panic. Proof. reflexivity. Qed.

(* Chains of cursor calls never panic: from a cursor on any node, every sequence of add_child,
   add_sibling and up succeeds, adds exactly one node per add call below the cursor's node
   (respectively its parent), and leaves the cursor with its correct parent. *)
Theorem C32_cursor_step : forall (T : Type) (root : T) h (c : cursor T) o,
  rep root h (cu_tree c) -> at_parent h c ->
  exists c' h', cursor_step c o = Ok c' /\ rep root h' (cu_tree c') /\ at_parent h' c' /\
    match o with
    | CChild d => h' = h ++ [(cu_current c, d)] /\ cu_current c' = S (length h)
    | CSibling d => h' = h ++ [(cu_parent c, d)] /\ cu_current c' = S (length h)
    | CUp => h' = h /\ cu_current c' = cu_parent c
    end.
Proof. intros T. exact cursor_step_spec. Qed.
Theorem C32_cursor_runs : forall (T : Type) (root : T) ops,
  exists c h l, ofold cursor_step ops (mkCursor (tree_new root) 0 0) = Ok c /\
    rep root h (cu_tree c) /\ for_each (cu_tree c) = Ok l /\ walk h 0 (map fst l) /\
    Permutation (map fst l) (seq 0 (S (length h))).
Proof.
  intros T root ops.
  destruct (cursor_run_spec root ops [] (mkCursor (tree_new root) 0 0) (rep_new root)) as (c & h & E & R & _);
    [split; cbn; lia|].
  destruct (for_each_spec root h _ R) as (l & E' & W & P & _). exists c, h, l. auto.
Qed.
Example C32_cursor_ex : exists c, ofold cursor_step [CChild 1; CChild 2; CUp; CSibling 3] (mkCursor (tree_new 0) 0 0) = Ok c /\
  for_each (cu_tree c) = Ok [(0, 0); (1, 1); (2, 2); (3, 3)].
Proof. eexists; split; vm_compute; reflexivity. Qed.
(* The representation relation used above says what the accessors return. *)
Theorem C32_accessors : forall (T : Type) (root : T) h (t : tree T) i, rep root h t -> i <= length h ->
  tree_children t i = kids h i /\
  exists n, tree_node t i = Ok n /\ data_of root h i = Some (nd_data n) /\ nd_index n = i.
Proof.
  intros T root h t i (G & Hl & Hr) Hi. destruct (Hr i Hi) as (n & Hn & A & _ & B & C).
  unfold tree_children, tree_node, oindex. rewrite Hn. eauto.
Qed.
Print Assumptions C32_traversal.
Print Assumptions C32_order_unique.
Print Assumptions C32_bad_parent.
Print Assumptions C32_cursor_step.
Print Assumptions C32_cursor_runs.
Print Assumptions C32_accessors.
