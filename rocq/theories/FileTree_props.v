(* FileTree_props.v - property C80: the tree of files and directories (src/file_system/file_tree.rs). *)
From Coq Require Import List Lia Bool PeanoNat.
From Verif Require Import Base FileTree_model FileTree_spec.
Import ListNotations.

Fixpoint fnode_rect' (P : FNode -> Prop) (Hf : forall e, P (FFile e)) (Hd : forall e cs, Forall P cs -> P (FDirectory e cs)) (t : FNode) : P t :=
  match t with
  | FFile e => Hf e
  | FDirectory e cs => Hd e cs ((fix go l := match l return Forall P l with
                                             | [] => Forall_nil _ | x :: r => Forall_cons _ (fnode_rect' P Hf Hd x) (go r) end) cs)
  end.
Lemma str_eqb_eq a b : str_eqb a b = true <-> a = b.
Proof. unfold str_eqb. destruct (list_eq_dec N.eq_dec a b); split; congruence. Qed.

Lemma split_nonnil c l : split_at c l <> [].
Proof. destruct l as [|x t]; cbn; [discriminate|]. destruct (x =? c)%N; [discriminate|]. destruct (split_at c t); discriminate. Qed.
Lemma components_slash p : components (0x2F%N :: p) = components p.
Proof. reflexivity. Qed.
Lemma components_slashes k p : components (slashes k ++ p) = components p.
Proof. induction k as [|k IH]; [reflexivity|]. unfold slashes; cbn [repeat app]. fold (slashes k); rewrite components_slash. exact IH. Qed.
Lemma split_name c n p : ~ In c n -> split_at c (n ++ p) = match split_at c p with q :: r => (n ++ q) :: r | [] => [] end.
Proof.
  induction n as [|x n IH]; intros H; cbn [app].
  - destruct (split_at c p) eqn:E; [exfalso; exact (split_nonnil c p E)|reflexivity].
  - cbn [split_at]. destruct (N.eqb_spec x c) as [E|E]; [exfalso; apply H; left; exact E|].
    rewrite IH by (intros I; apply H; right; exact I). destruct (split_at c p) eqn:E2; [exfalso; exact (split_nonnil c p E2)|reflexivity].
Qed.
Lemma sep_components ns p : path_of ns p -> components p = ns.
Proof.
  induction 1 as [k|k n [Hn Hs]|k n ns p [Hn Hs] _ IH].
  - rewrite <- (app_nil_r (slashes k)), components_slashes. reflexivity.
  - rewrite components_slashes. unfold components. rewrite <- (app_nil_r n), split_name by exact Hs. cbn. rewrite app_nil_r. destruct n; [congruence|reflexivity].
  - rewrite components_slashes. unfold components. rewrite split_name by exact Hs. cbn [split_at]. change (0x2F =? 0x2F)%N with true. cbv iota.
    cbn [filter]. rewrite app_nil_r. destruct n; [congruence|]. cbn [nonempty]. f_equal. exact IH.
Qed.

(* every string is a path of some names *)
Lemma every_path p : exists ns, path_of ns p.
Proof.
  induction p as [|x t [ns IH]]; [exists []; exact (path_end 0)|].
  destruct (N.eq_dec x 0x2F) as [->|E].
  - exists ns. destruct IH as [k|k n H|k n ns p H H2].
    + exact (path_end (S k)).
    + exact (path_last (S k) n H).
    + exact (path_cons (S k) n ns p H H2).
  - assert (N1 : name_ok [x]) by (split; [discriminate|intros [Q|[]]; congruence]).
    assert (Ext : forall n, name_ok n -> name_ok (x :: n)) by (intros n [A B]; split; [discriminate|intros [Q|Q]; [congruence|auto]]).
    destruct IH as [k|k n H|k n ns p H H2]; destruct k as [|k].
    + exists [[x]]. exact (path_last 0 [x] N1).
    + exists [[x]]. exact (path_cons 0 [x] [] (slashes k) N1 (path_end k)).
    + exists [x :: n]. exact (path_last 0 (x :: n) (Ext n H)).
    + exists [[x]; n]. exact (path_cons 0 [x] [n] (slashes k ++ n) N1 (path_last k n H)).
    + exists ((x :: n) :: ns). exact (path_cons 0 (x :: n) ns p (Ext n H) H2).
    + exists ([x] :: n :: ns). exact (path_cons 0 [x] (n :: ns) _ N1 (path_cons k n ns p H H2)).
Qed.

Lemma find_child cs n : (exists d ds, In (FDirectory d ds) cs /\ fe_short d = n) ->
  exists d ds, find (fun x => is_dir x && str_eqb (fe_short (entry x)) n) cs = Some (FDirectory d ds) /\ In (FDirectory d ds) cs /\ fe_short d = n.
Proof.
  intros (d & ds & I & E). destruct (find (fun x => is_dir x && str_eqb (fe_short (entry x)) n) cs) as [x|] eqn:F.
  - apply find_some in F. destruct F as [I2 F]. apply andb_prop in F. destruct F as [F1 F2]. destruct x as [e|d2 ds2]; [discriminate|].
    apply str_eqb_eq in F2. eauto.
  - pose proof (find_none _ _ F _ I) as X. cbn [is_dir entry andb] in X. assert (Y : str_eqb (fe_short d) n = true) by (apply str_eqb_eq; exact E). congruence.
Qed.
Lemma resolve_iff : forall ns t u, unambiguous t -> (resolve_node ns t = Some u <-> leads t ns u).
Proof.
  induction ns as [|n ns IH]; intros t u U; destruct U as [e|e cs Un Fu]; cbn [resolve_node].
  - split; [discriminate|intros L; inversion L].
  - split; [intros [= <-]; constructor|intros L; inversion L; reflexivity].
  - split; [discriminate|intros L; inversion L].
  - split.
    + destruct (find _ cs) as [x|] eqn:F; [|discriminate]. intros R. apply find_some in F. destruct F as [I F]. apply andb_prop in F. destruct F as [F1 F2].
      destruct x as [|d ds]; [discriminate|]. apply str_eqb_eq in F2. cbn [entry] in F2.
      eapply leads_down; [exact I|exact F2|]. apply IH; [|exact R]. rewrite Forall_forall in Fu. exact (Fu _ I).
    + intros L. inversion L as [|e' cs' d ds n' ns' u' I E L']; subst.
      destruct (find_child cs (fe_short d)) as (d2 & ds2 & F & I2 & E2); [eauto|]. rewrite F.
      rewrite (Un _ _ _ _ I2 I E2). apply IH; [|exact L']. rewrite Forall_forall in Fu. exact (Fu _ I).
Qed.

(* A path leads to exactly the directory its names lead to, however many slashes it has. *)
Theorem C80_node : forall t ns p u, unambiguous t -> path_of ns p -> (node t p = Some u <-> leads t ns u).
Proof. intros t ns p u U H. unfold node. rewrite (sep_components ns p H). apply resolve_iff. exact U. Qed.

(* The recursive listing has each file below the node once, in the order of the directories, with its path and its name; where there is
   no long name the short one stands for it. *)
Lemma visits : forall t l, lists t l -> for_each_file true t = l.
Proof.
  apply (fnode_rect' (fun t => forall l, lists t l -> for_each_file true t = l)).
  - intros e l L. inversion L. reflexivity.
  - intros e cs F l L. inversion L as [|e' cs' ls H]; subst. cbn [for_each_file]. clear L. induction H as [|c x cs ls Hc H IH]; [reflexivity|].
    cbn [flat_map concat]. rewrite (Forall_inv F x Hc), IH; [reflexivity|exact (Forall_inv_tail F)].
Qed.
Theorem C80_files : forall t, exists l, lists t l /\ (forall e, In e l <-> below t e) /\ file_paths true t = map fe_path l /\
  file_names true t NShort = map fe_short l /\
  length (file_names true t NLong) = length l /\
  forall i e, nth_error l i = Some e -> nth_error (file_names true t NLong) i = Some (match fe_name e NLong with Some n => n | None => fe_short e end).
Proof.
  intros t. assert (X : exists l, lists t l).
  { apply (fnode_rect' (fun t => exists l, lists t l)).
    - intros e. exists [e]. constructor.
    - intros e cs F. assert (Y : exists ls, Forall2 lists cs ls).
      { induction F as [|c cs [l Hl] F [ls IH]]; [exists []; constructor|exists (l :: ls); constructor; assumption]. }
      destruct Y as [ls Y]. exists (concat ls). constructor. exact Y. }
  destruct X as [l L]. exists l. split; [exact L|]. pose proof (visits t l L) as V. split.
  { intros e. rewrite <- V. clear V L l. revert t. 
    apply (fnode_rect' (fun t => In e (for_each_file true t) <-> below t e)).
    - intros f. cbn. split; [intros [->|[]]; constructor|intros B; inversion B; auto].
    - intros d cs F. cbn [for_each_file]. rewrite in_flat_map. split.
      + intros (c & I & J). rewrite Forall_forall in F. eapply below_dir; [exact I|]. apply (F c I). exact J.
      + intros B. inversion B as [|d' cs' c f I J]; subst. exists c. split; [exact I|]. rewrite Forall_forall in F. apply (F c I). exact J. }
  unfold file_paths, file_names. rewrite V. split; [reflexivity|]. split; [reflexivity|]. split; [apply map_length|].
  intros i e E. rewrite nth_error_map, E. cbn [option_map fe_name]. destruct (fe_long e); reflexivity.
Qed.
Theorem C80_ext : forall e a b, ~ In 0x2E%N b -> (fe_short e = a ++ 0x2E%N :: b -> fe_ext e = Some b) /\ (fe_short e = b -> fe_ext e = None).
Proof.
  intros e a b Hb. assert (Sb : split_at 0x2E b = [b]) by (rewrite <- (app_nil_r b) at 1; rewrite split_name by exact Hb; cbn; rewrite app_nil_r; reflexivity).
  split; intros E; unfold fe_ext; rewrite E.
  - assert (X : exists q r, split_at 0x2E (a ++ 0x2E%N :: b) = q :: r ++ [b]).
    { clear E. induction a as [|x a (q & r & IH)]; cbn [app].
      - exists [], []. cbn [split_at]. change (0x2E =? 0x2E)%N with true. cbv iota. rewrite Sb. reflexivity.
      - cbn [split_at]. destruct (x =? 0x2E)%N; [exists [], (q :: r); rewrite IH; reflexivity|]. rewrite IH. exists (x :: q), r. reflexivity. }
    destruct X as (q & r & ->). cbn [length]. rewrite app_length. cbn [length]. replace (1 <? S (length r + 1)) with true by (symmetry; apply Nat.ltb_lt; lia).
    replace (S (length r + 1) - 1) with (S (length r)) by lia. cbn [nth_error]. rewrite nth_error_app2, Nat.sub_diag by lia. reflexivity.
  - rewrite Sb. reflexivity.
Qed.
(* The entries of the root are listed. *)
Theorem C80_dir_root : forall e cs p, path_of [] p -> dir (FDirectory e cs) p = Some (map entry cs).
Proof. intros e cs p H. unfold dir. rewrite (sep_components _ _ H). reflexivity. Qed.

(* FALSE: "dir lists the directory of a path".  Every path with a name in it is answered with None, whether or not it leads to a directory. *)
Theorem C80_dir_refuted : forall t n ns p, path_of (n :: ns) p -> dir t p = None.
Proof. intros t n ns p H. unfold dir. rewrite (sep_components _ _ H). destruct t; reflexivity. Qed.
(* FALSE: "node finds what is at a path": files are never found, even by the path recorded in them. *)
Theorem C80_file_refuted : forall t p e, node t p <> Some (FFile e).
Proof.
  intros t p e. unfold node. generalize (components p). intros ns. revert t. induction ns as [|n ns IH]; intros [f|d cs]; cbn [resolve_node]; try discriminate.
  destruct (find _ cs); [apply IH|discriminate].
Qed.
(* FALSE: "the listing without recursion has the files of the directory": it is empty. *)
Theorem C80_flat_refuted : forall e cs ty, file_names false (FDirectory e cs) ty = [] /\ file_paths false (FDirectory e cs) = [].
Proof. intros e cs ty. split; reflexivity. Qed.

(* "/a/b.c" and the empty directory "/a/d" *)
Definition ex_file : FEntry := mkFe false [98; 46; 99]%N None [47; 97; 47; 98; 46; 99]%N 7.
Definition ex_sub : FNode := FDirectory (mkFe true [100]%N None [47; 97; 47; 100]%N 0) [].
Definition ex_a : FNode := FDirectory (mkFe true [97]%N None [47; 97]%N 0) [FFile ex_file; ex_sub].
Definition ex_tree : FNode := FDirectory (mkFe true [47]%N (Some [47]%N) [47]%N 0) [ex_a].
Example C80_witness : unambiguous ex_tree /\ path_of [[97]; [100]]%N [47; 97; 47; 47; 100; 47]%N /\ leads ex_tree [[97]; [100]]%N ex_sub /\
  node ex_tree [47; 97; 47; 47; 100; 47]%N = Some ex_sub /\ dir ex_tree [47; 97]%N = None /\ file_paths true ex_tree = [[47; 97; 47; 98; 46; 99]%N] /\
  fe_ext ex_file = Some [99]%N.
Proof.
  split.
  { constructor.
    - intros d1 c1 d2 c2 [Q1|[]] [Q2|[]] _. congruence.
    - constructor; [|constructor]. constructor.
      + intros d1 c1 d2 c2 [Q1|[Q1|[]]] [Q2|[Q2|[]]] _; congruence.
      + constructor; [constructor|]. constructor; [|constructor]. constructor; [intros d1 c1 d2 c2 []|constructor]. }
  split.
  { apply (path_cons 1 [97]%N [[100]%N] [47; 100; 47]%N); [split; [discriminate|intros [Q|[]]; discriminate]|].
    apply (path_cons 1 [100]%N [] []); [split; [discriminate|intros [Q|[]]; discriminate]|exact (path_end 0)]. }
  split.
  { eapply leads_down; [left; reflexivity|reflexivity|]. eapply leads_down; [right; left; reflexivity|reflexivity|]. constructor. }
  repeat split.
Qed.

Print Assumptions C80_node.
Print Assumptions C80_files.
Print Assumptions C80_ext.
Print Assumptions C80_dir_root.
Print Assumptions C80_dir_refuted.
Print Assumptions C80_file_refuted.
Print Assumptions C80_flat_refuted.
