(* Lock_proofs.v - invariants of the locks of C79. *)
From Coq Require Import List Lia Bool PeanoNat.
From Verif Require Import Base Lock_model Lock_spec.
Import ListNotations.

Definition kind_eqb (a b : Kind) : bool := match a, b with KRead, KRead => true | KWrite, KWrite => true | _, _ => false end.
Definition ctx_is (c : nat) (o : option nat) : bool := match o with Some d => d =? c | None => false end.
Definition tsel (k : Kind) (c : nat) (g : Guard) : bool := g_tracked g && kind_eqb (g_kind g) k && ctx_is c (g_ctx g).
Definition tcount (k : Kind) (c : nat) (l : list Guard) : nat := length (filter (tsel k c) l).
Definition ids (l : list Guard) : list nat := map g_id l.

Record Inv0 (s : LState) : Prop := {
  i_nodup : NoDup (ids (l_live s));
  i_lt : forall g, In g (l_live s) -> g_id g < l_next s;
  i_excl : forall g, In g (l_live s) -> is_write g = true -> l_live s = [g] }.
Record InvC (s : LState) : Prop := {
  c_np : l_rpoison s = false;
  c_ctx : forall g, In g (l_live s) -> g_ctx g <> None;
  c_tab : l_mpoison s = false ->
    (forall c, rl_get c (l_reads s) = match tcount KRead c (l_live s) with 0 => None | n => Some n end)
    /\ NoDup (map fst (l_reads s))
    /\ (forall c, l_write s = Some c <-> 0 < tcount KWrite c (l_live s)) }.

Lemma can_read_spec : forall s, can_read s = true <-> (forall g, In g (l_live s) -> is_write g = false) /\ l_rpoison s = false.
Proof.
  intros s; unfold can_read; rewrite andb_true_iff, !negb_true_iff; split; intros [A B]; split; auto.
  - intros g I; destruct (is_write g) eqn:E; auto.
    assert (existsb is_write (l_live s) = true) by (apply existsb_exists; eauto); congruence.
  - destruct (existsb is_write (l_live s)) eqn:E; auto.
    apply existsb_exists in E; destruct E as (g & I & W); rewrite (A g I) in W; discriminate.
Qed.
Lemma can_write_spec : forall s, can_write s = true <-> l_live s = [] /\ l_rpoison s = false.
Proof.
  intros s; unfold can_write; destruct (l_live s).
  - rewrite negb_true_iff; tauto.
  - split; [discriminate | intros [A _]; discriminate].
Qed.

Lemma inv0_init : Inv0 l_init.
Proof. constructor; simpl; try constructor; contradiction. Qed.
Lemma inv0_live : forall s s', l_live s' = l_live s -> l_next s' = l_next s -> Inv0 s -> Inv0 s'.
Proof. intros s s' A B [X Y Z]; constructor; rewrite ?A, ?B; auto. Qed.
Lemma inv0_add : forall s k c, Inv0 s -> (k = KRead -> can_read s = true) -> (k = KWrite -> can_write s = true) -> Inv0 (add_guard s k c).
Proof.
  intros s k c [X Y Z] R W; constructor; simpl.
  - constructor; auto. intros I; apply in_map_iff in I; destruct I as (g & E & I); apply Y in I; lia.
  - intros g [<- | I]; simpl; auto. apply Y in I; lia.
  - intros g I V. destruct k.
    + destruct (proj1 (can_read_spec s) (R eq_refl)) as [A _].
      destruct I as [<- | I]; [discriminate V|]. rewrite (A g I) in V; discriminate.
    + destruct (proj1 (can_write_spec s) (W eq_refl)) as [A _]; rewrite A in *.
      destruct I as [<- | []]; auto.
Qed.
Lemma mark_id : forall i g, g_id (mark_untracked i g) = g_id g.
Proof. intros i g; unfold mark_untracked; destruct (g_id g =? i); auto. Qed.
Lemma mark_kind : forall i g, g_kind (mark_untracked i g) = g_kind g.
Proof. intros i g; unfold mark_untracked; destruct (g_id g =? i); auto. Qed.
Lemma mark_ctx : forall i g, g_ctx (mark_untracked i g) = g_ctx g.
Proof. intros i g; unfold mark_untracked; destruct (g_id g =? i); auto. Qed.
Lemma mark_write : forall i g, is_write (mark_untracked i g) = is_write g.
Proof. intros i g; unfold is_write; rewrite mark_kind; auto. Qed.
Lemma inv0_mark : forall s i, Inv0 s -> Inv0 (with_live s (map (mark_untracked i) (l_live s))).
Proof.
  intros s i [X Y Z]; constructor; simpl.
  - unfold ids; rewrite map_map; erewrite map_ext; [exact X|]. intros; apply mark_id.
  - intros g I; apply in_map_iff in I; destruct I as (h & <- & I); rewrite mark_id; auto.
  - intros g I W; apply in_map_iff in I; destruct I as (h & <- & I); rewrite mark_write in W.
    rewrite (Z h I W); auto.
Qed.
Lemma nodup_filter_ids : forall f l, NoDup (ids l) -> NoDup (ids (filter f l)).
Proof.
  induction l as [|a l IH]; simpl; intros N; auto. inversion N; subst.
  destruct (f a); simpl; auto. constructor; auto.
  intros I; apply in_map_iff in I; destruct I as (h & E & I); apply filter_In in I.
  apply H1; rewrite <- E; apply in_map; tauto.
Qed.
Lemma inv0_filter : forall s f, Inv0 s -> Inv0 (with_live s (filter f (l_live s))).
Proof.
  intros s f [X Y Z]; constructor; simpl.
  - apply nodup_filter_ids; auto.
  - intros g I; apply filter_In in I; apply Y; tauto.
  - intros g I W; apply filter_In in I; destruct I as [I F].
    rewrite (Z g I W); simpl; rewrite F; auto.
Qed.

Lemma untrack_live : forall s g c, l_live (fst (l_untrack s g c)) = map (mark_untracked (g_id g)) (l_live s) /\ l_next (fst (l_untrack s g c)) = l_next s
  /\ l_rpoison (fst (l_untrack s g c)) = l_rpoison s.
Proof.
  intros; unfold l_untrack; cbn [l_mpoison with_live l_reads l_write].
  destruct (l_mpoison s); [auto|]. destruct (g_kind g).
  - destruct (rl_get c (l_reads s)) as [[|n]|]; auto.
  - destruct (l_write s) as [w|]; auto. destruct (w =? c); auto.
Qed.

Lemma inv0_step : forall s op s' r, Inv0 s -> l_step s op = Some (s', r) -> Inv0 s'.
Proof.
  intros s op s' r I E; destruct op; simpl in E.
  - inversion E; clear E. unfold l_read in H0.
    destruct (l_mpoison s); [inversion H0; subst; auto|].
    destruct (l_write s); [inversion H0; subst; auto|].
    destruct (can_read s) eqn:C; inversion H0; subst.
    + apply inv0_add; [eapply inv0_live; [| |exact I]; auto| |discriminate]. intros; exact C.
    + eapply inv0_live; [| |exact I]; auto.
  - inversion E; clear E. unfold l_write_op in H0.
    destruct (l_mpoison s); [inversion H0; subst; auto|].
    destruct (l_reads s) eqn:ER; [|inversion H0; subst; auto].
    destruct (l_write s); [inversion H0; subst; auto|].
    destruct (can_write (with_write s (Some c))) eqn:C; inversion H0; subst.
    + apply inv0_add; [eapply inv0_live; [| |exact I]; auto|discriminate|]. intros; exact C.
    + eapply inv0_live; [| |exact I]; auto.
  - destruct (find_guard s i) as [g|]; [|discriminate]. destruct (g_ctx g) as [c|]; [|discriminate].
    destruct (g_tracked g); [|discriminate]. inversion E; clear E.
    destruct (untrack_live s g c) as (A & B & _). rewrite H0 in A, B; simpl in A, B.
    eapply inv0_live; [| |apply (inv0_mark s (g_id g) I)]; simpl; auto.
  - destruct (find_guard s i) as [g|]; [|discriminate].
    destruct (g_tracked g); [discriminate|]. inversion E; subst; clear E. unfold l_release.
    pose proof (inv0_filter s (fun x => negb (g_id x =? g_id g)) I) as J.
    destruct (is_write g && panicking); [eapply inv0_live; [| |exact J]; reflexivity|exact J].
  - destruct (can_read s) eqn:C; inversion E; subst; auto. apply inv0_add; auto; discriminate.
  - destruct (can_write s) eqn:C; inversion E; subst; auto. apply inv0_add; auto; discriminate.
Qed.
Lemma run_ind : forall (P : LState -> Prop) (Q : LOp -> Prop),
  (forall s op s' r, P s -> Q op -> l_step s op = Some (s', r) -> P s') ->
  forall ops s s' rs, P s -> Forall Q ops -> l_run s ops = Some (s', rs) -> P s'.
Proof.
  intros P Q H; induction ops as [|op t IH]; simpl; intros s s' rs A F E; [inversion E; subst; auto|].
  inversion F; subst. destruct (l_step s op) as [[s1 r]|] eqn:ES; [|discriminate].
  destruct (l_run s1 t) as [[s2 rs2]|] eqn:ER; [|discriminate]. inversion E; subst. eauto.
Qed.
Lemma inv0_run : forall ops s rs, l_run l_init ops = Some (s, rs) -> Inv0 s.
Proof.
  intros ops s rs E. apply (run_ind Inv0 (fun _ => True)) with (ops := ops) (s := l_init) (rs := rs); auto.
  - intros; eapply inv0_step; eauto.
  - exact inv0_init.
  - apply Forall_forall; auto.
Qed.

(* the tables *)
Lemma get_incr : forall c d m, rl_get d (rl_incr c m) = if c =? d then Some (S (match rl_get c m with Some n => n | None => 0 end)) else rl_get d m.
Proof.
  induction m as [|[k n] t IH]; simpl.
  - destruct (c =? d) eqn:E; auto.
  - destruct (k =? c) eqn:K; simpl.
    + apply Nat.eqb_eq in K; subst k. destruct (c =? d); auto.
    + destruct (k =? d) eqn:D; auto. destruct (c =? d) eqn:E; auto.
      apply Nat.eqb_eq in D; apply Nat.eqb_eq in E; subst; rewrite Nat.eqb_refl in K; discriminate.
Qed.
Lemma get_remove : forall c d m, rl_get d (rl_remove c m) = if c =? d then None else rl_get d m.
Proof.
  induction m as [|[k n] t IH]; simpl.
  - destruct (c =? d); auto.
  - destruct (k =? c) eqn:K; simpl.
    + apply Nat.eqb_eq in K; subst k. rewrite IH. destruct (c =? d); auto.
    + rewrite IH. destruct (k =? d) eqn:D; auto. destruct (c =? d) eqn:E; auto.
      apply Nat.eqb_eq in D; apply Nat.eqb_eq in E; subst; rewrite Nat.eqb_refl in K; discriminate.
Qed.
Lemma get_set : forall c v d m, rl_get c m <> None -> rl_get d (rl_set c v m) = if c =? d then Some v else rl_get d m.
Proof.
  induction m as [|[k n] t IH]; simpl; intros N; [congruence|].
  destruct (k =? c) eqn:K; simpl.
  - apply Nat.eqb_eq in K; subst k. destruct (c =? d); auto.
  - rewrite IH by auto. destruct (k =? d) eqn:D; auto. destruct (c =? d) eqn:E; auto.
    apply Nat.eqb_eq in D; apply Nat.eqb_eq in E; subst; rewrite Nat.eqb_refl in K; discriminate.
Qed.
Lemma in_get : forall c m, In c (map fst m) <-> rl_get c m <> None.
Proof.
  induction m as [|[k n] t IH]; simpl; [tauto|].
  destruct (k =? c) eqn:K.
  - apply Nat.eqb_eq in K. split; [congruence|auto].
  - apply Nat.eqb_neq in K. rewrite <- IH. tauto.
Qed.
Lemma nodup_incr : forall c m, NoDup (map fst m) -> NoDup (map fst (rl_incr c m)).
Proof.
  induction m as [|[k n] t IH]; simpl; intros N; [repeat constructor; auto|].
  inversion N; subst. destruct (k =? c) eqn:K; simpl; constructor; auto.
  rewrite in_get in *. rewrite get_incr. rewrite Nat.eqb_sym, K; auto.
Qed.
Lemma nodup_remove : forall c m, NoDup (map fst m) -> NoDup (map fst (rl_remove c m)).
Proof.
  induction m as [|[k n] t IH]; simpl; intros N; auto.
  inversion N; subst. destruct (k =? c) eqn:K; simpl; auto. constructor; auto.
  rewrite in_get in *. rewrite get_remove. rewrite Nat.eqb_sym, K; auto.
Qed.
Lemma keys_set : forall c v m, map fst (rl_set c v m) = map fst m.
Proof. induction m as [|[k n] t IH]; simpl; auto. destruct (k =? c); simpl; congruence. Qed.

(* counts *)
Lemma tcount_cons : forall k c g l, tcount k c (g :: l) = (if tsel k c g then 1 else 0) + tcount k c l.
Proof. intros; unfold tcount; simpl; destruct (tsel k c g); auto. Qed.
Lemma mark_other : forall i l, ~ In i (ids l) -> map (mark_untracked i) l = l.
Proof.
  induction l as [|a l IH]; simpl; intros N; auto. rewrite IH by tauto.
  unfold mark_untracked. destruct (g_id a =? i) eqn:E; auto. apply Nat.eqb_eq in E; tauto.
Qed.
Lemma tcount_mark : forall k c g l, NoDup (ids l) -> In g l ->
  tcount k c l = (if tsel k c g then 1 else 0) + tcount k c (map (mark_untracked (g_id g)) l).
Proof.
  induction l as [|a l IH]; simpl; intros N I; [contradiction|]. inversion N; subst.
  rewrite !tcount_cons. destruct I as [-> | I].
  - rewrite mark_other by auto. unfold mark_untracked at 1; rewrite Nat.eqb_refl. unfold tsel at 3; simpl. auto.
  - rewrite (IH H2 I). assert (g_id a <> g_id g) by (intros Q; apply H1; rewrite Q; apply in_map; auto).
    unfold mark_untracked at 2. apply Nat.eqb_neq in H; rewrite H. lia.
Qed.
Lemma tcount_release : forall k c g l, NoDup (ids l) -> In g l -> g_tracked g = false ->
  tcount k c (filter (fun x => negb (g_id x =? g_id g)) l) = tcount k c l.
Proof.
  intros k c g l N I T. unfold tcount.
  assert (G : forall x, In x l -> g_id x = g_id g -> x = g).
  { clear T; induction l as [|a l IH]; simpl in *; intros x X E; [contradiction|]. inversion N; subst.
    destruct X as [<-|X], I as [<-|I]; auto.
    - exfalso; apply H1; rewrite E; apply in_map; auto.
    - exfalso; apply H1; rewrite <- E; apply in_map; auto. }
  clear N I. induction l as [|a l IH]; simpl; auto.
  destruct (g_id a =? g_id g) eqn:E; simpl.
  - apply Nat.eqb_eq in E. rewrite (G a) by (simpl; auto). unfold tsel at 2; rewrite T; simpl. apply IH; simpl in *; auto.
  - destruct (tsel k c a); simpl; rewrite IH; simpl in *; auto.
Qed.
Lemma tcount_pos : forall k c l, 0 < tcount k c l <-> exists g, In g l /\ g_kind g = k /\ g_ctx g = Some c /\ g_tracked g = true.
Proof.
  intros; unfold tcount; split.
  - destruct (filter (tsel k c) l) as [|g t] eqn:E; simpl; [lia|]. intros _.
    assert (I : In g (filter (tsel k c) l)) by (rewrite E; simpl; auto).
    apply filter_In in I; destruct I as [I F]. unfold tsel in F. apply andb_prop in F; destruct F as [F C]; apply andb_prop in F; destruct F as [T K].
    exists g; repeat split; auto.
    + destruct (g_kind g), k; simpl in K; congruence.
    + destruct (g_ctx g); simpl in C; [|discriminate]. apply Nat.eqb_eq in C; congruence.
  - intros (g & I & K & C & T).
    assert (J : In g (filter (tsel k c) l)).
    { apply filter_In; split; auto. unfold tsel; rewrite T, K, C; simpl. rewrite Nat.eqb_refl. destruct k; auto. }
    destruct (filter (tsel k c) l); [contradiction|simpl; lia].
Qed.

Lemma invc_init : InvC l_init.
Proof. constructor; simpl; auto. intros _; split; [reflexivity|split; [constructor|]]. intros c; split; [discriminate|unfold tcount; simpl; lia]. Qed.
Lemma find_in : forall s i g, find_guard s i = Some g -> In g (l_live s) /\ g_id g = i.
Proof. intros s i g E; unfold find_guard in E; apply find_some in E; destruct E as [A B]; apply Nat.eqb_eq in B; auto. Qed.
Lemma excl_count : forall s g k c, Inv0 s -> In g (l_live s) -> is_write g = true -> 0 < tcount k c (l_live s) -> tsel k c g = true.
Proof.
  intros s g k c I A B C. rewrite (i_excl _ I g A B) in C. unfold tcount in C; simpl in C. destruct (tsel k c g); auto; simpl in C; lia.
Qed.

Lemma invc_mpoison : forall s, InvC s -> InvC (poison_mutex s).
Proof. intros s [A B C]; constructor; simpl; auto; discriminate. Qed.
Lemma tsel_new : forall k c i k' c', tsel k c (mkGuard i k' (Some c') true) = kind_eqb k' k && (c' =? c).
Proof. reflexivity. Qed.
Lemma invc_step : forall s op s' r, Inv0 s -> InvC s -> calm_op op -> l_step s op = Some (s', r) -> InvC s'.
Proof.
  intros s op s' r I V Q E. destruct op; simpl in Q, E; try contradiction.
  - inversion E; clear E. unfold l_read in H0.
    destruct (l_mpoison s) eqn:EM; [inversion H0; subst; auto|].
    destruct (l_write s) eqn:EW; [inversion H0; subst; auto|].
    destruct (can_read s) eqn:C; inversion H0; subst; [|apply invc_mpoison; auto].
    destruct V as [A B D]. destruct (D EM) as (R & N & W). constructor; simpl; auto.
    + intros g [<- | J]; auto; simpl; congruence.
    + intros _. split; [|split].
      * intros d. rewrite get_incr, tcount_cons, tsel_new; simpl. rewrite !R. destruct (c =? d) eqn:CD; simpl; auto.
        apply Nat.eqb_eq in CD; subst d. destruct (tcount KRead c (l_live s)); auto.
      * apply nodup_incr; auto.
      * intros d. rewrite tcount_cons, tsel_new; simpl. apply W.
  - inversion E; clear E. unfold l_write_op in H0.
    destruct (l_mpoison s) eqn:EM; [inversion H0; subst; auto|].
    destruct (l_reads s) eqn:ER; [|inversion H0; subst; auto].
    destruct (l_write s) eqn:EW; [inversion H0; subst; auto|].
    destruct (can_write (with_write s (Some c))) eqn:C; inversion H0; subst.
    2:{ destruct V as [A B D]; constructor; simpl; auto; discriminate. }
    destruct V as [A B D]. destruct (D EM) as (R & N & W).
    apply can_write_spec in C; simpl in C. destruct C as [C _].
    constructor; simpl; auto.
    + intros g [<- | J]; auto; simpl; congruence.
    + intros _. rewrite C. split; [|split].
      * intros d. rewrite R, C, tcount_cons, tsel_new; simpl. auto.
      * rewrite ER; constructor.
      * intros d. rewrite tcount_cons, tsel_new; unfold tcount; simpl. destruct (c =? d) eqn:CD.
        -- apply Nat.eqb_eq in CD; subst; split; [lia|auto].
        -- apply Nat.eqb_neq in CD. split; [congruence|lia].
  - destruct (find_guard s i) as [g|] eqn:F; [|discriminate]. destruct (g_ctx g) as [c|] eqn:GC; [|discriminate].
    destruct (g_tracked g) eqn:GT; [|discriminate]. apply find_in in F; destruct F as [F <-].
    assert (X : InvC s' \/ (l_rpoison s' = false /\ l_live s' = map (mark_untracked (g_id g)) (l_live s) /\ (l_mpoison s' = false -> l_mpoison s = false /\ (forall c, rl_get c (l_reads s') = match tcount KRead c (l_live s') with 0 => None | n => Some n end)
       /\ NoDup (map fst (l_reads s')) /\ (forall c, l_write s' = Some c <-> 0 < tcount KWrite c (l_live s'))))).
    2:{ destruct X as [X|(P & L & X)]; auto. destruct V as [A B D]. constructor; auto.
        - rewrite L. intros h J; apply in_map_iff in J; destruct J as (h' & <- & J). rewrite mark_ctx; auto.
        - intros M; apply X in M; tauto. }
    right. inversion E; clear E. destruct V as [A B D].
    pose proof (untrack_live s g c) as (L & _ & P). rewrite H0 in L, P; simpl in L, P. rewrite P, A. split; auto. split; auto.
    unfold l_untrack in H0; cbn [l_mpoison with_live l_reads l_write] in H0.
    destruct (l_mpoison s) eqn:EM; [inversion H0; subst; simpl; congruence|]. destruct (D eq_refl) as (R & N & W).
    pose proof (fun k c => tcount_mark k c g (l_live s) (i_nodup _ I) F) as TM. rewrite L. clear P.
    assert (S1 : forall k d, tsel k d g = kind_eqb (g_kind g) k && (c =? d)) by (intros; unfold tsel; rewrite GT, GC; auto).
    intros _. split; auto. destruct (g_kind g) eqn:GK.
    + assert (W' : forall d, tcount KWrite d (map (mark_untracked (g_id g)) (l_live s)) = tcount KWrite d (l_live s)).
      { intros d; rewrite (TM KWrite d), S1; simpl; auto. }
      pose proof (TM KRead c) as TC. rewrite S1 in TC; simpl in TC; rewrite Nat.eqb_refl in TC.
      rewrite R in H0. destruct (tcount KRead c (l_live s)) as [|n] eqn:EN; [lia|].
      inversion H0; subst; clear H0; simpl in *. split; [|split].
      * intros d. pose proof (TM KRead d) as TD. rewrite S1 in TD; simpl in TD.
        assert (G : rl_get d match n with 0 => rl_remove c (l_reads s) | S _ => rl_set c n (l_reads s) end
            = if c =? d then match n with 0 => None | S _ => Some n end else rl_get d (l_reads s)).
        { destruct n; [apply get_remove|apply get_set]. rewrite R, EN; discriminate. }
        rewrite G. destruct (c =? d) eqn:CD.
        -- apply Nat.eqb_eq in CD; subst d. assert (X : tcount KRead c (map (mark_untracked (g_id g)) (l_live s)) = n) by lia.
           rewrite X. destruct n; auto.
        -- rewrite R, TD; auto.
      * destruct n; [apply nodup_remove; auto | rewrite keys_set; auto].
      * intros d; rewrite W'; apply W.
    + assert (R' : forall d, tcount KRead d (map (mark_untracked (g_id g)) (l_live s)) = tcount KRead d (l_live s)).
      { intros d; rewrite (TM KRead d), S1; simpl; auto. }
      pose proof (TM KWrite c) as TC. rewrite S1 in TC; simpl in TC; rewrite Nat.eqb_refl in TC.
      assert (WC : l_write s = Some c) by (apply W; lia). rewrite WC, Nat.eqb_refl in H0.
      inversion H0; subst; clear H0; simpl in *. split; [|split]; auto.
      * intros d; rewrite R'; apply R.
      * intros d. split; [discriminate|]. intros P. exfalso.
        assert (GW : is_write g = true) by (unfold is_write; rewrite GK; auto).
        rewrite (i_excl _ I g F GW) in P. simpl in P. unfold mark_untracked in P; rewrite Nat.eqb_refl in P. cbv in P; lia.
  - destruct (find_guard s i) as [g|] eqn:F; [|discriminate].
    destruct (g_tracked g) eqn:GT; [discriminate|]. inversion E; subst; clear E. unfold l_release. rewrite andb_false_r.
    apply find_in in F; destruct F as [F _]. destruct V as [A B D]. constructor; simpl; auto.
    + intros h J; apply filter_In in J; apply B; tauto.
    + intros M. destruct (D M) as (R & N & W). split; [|split]; auto.
      * intros d; rewrite tcount_release; auto. apply (i_nodup _ I).
      * intros d; rewrite tcount_release; auto. apply (i_nodup _ I).
Qed.
Lemma invc_run : forall ops s rs, Forall calm_op ops -> l_run l_init ops = Some (s, rs) -> Inv0 s /\ InvC s.
Proof.
  intros ops s rs F E. apply (run_ind (fun s => Inv0 s /\ InvC s) calm_op) with (ops := ops) (s := l_init) (rs := rs); auto.
  - intros s0 op s' r [A B] C D; split; [eapply inv0_step; eauto|eapply invc_step; eauto].
  - split; [exact inv0_init | exact invc_init].
Qed.

(* the poison flag of the mutex is exactly an earlier panic *)
Lemma step_mpoison : forall s op s' r, l_step s op = Some (s', r) -> (l_mpoison s' = true <-> l_mpoison s = true \/ r = RPanic).
Proof.
  intros s op s' r E; destruct op; simpl in E.
  - inversion E; clear E. unfold l_read in H0. destruct (l_mpoison s) eqn:EM; [inversion H0; subst; intuition congruence|].
    destruct (l_write s); [inversion H0; subst; intuition congruence|].
    destruct (can_read s); inversion H0; subst; simpl; intuition congruence.
  - inversion E; clear E. unfold l_write_op in H0. destruct (l_mpoison s) eqn:EM; [inversion H0; subst; intuition congruence|].
    destruct (l_reads s); [|inversion H0; subst; intuition congruence].
    destruct (l_write s); [inversion H0; subst; intuition congruence|].
    destruct (can_write _); inversion H0; subst; simpl; intuition congruence.
  - destruct (find_guard s i) as [g|]; [|discriminate]. destruct (g_ctx g) as [c|]; [|discriminate].
    destruct (g_tracked g); [|discriminate]. inversion E; clear E. unfold l_untrack in H0; cbn [l_mpoison with_live l_reads l_write] in H0.
    destruct (l_mpoison s) eqn:EM; [inversion H0; subst; simpl; intuition congruence|].
    destruct (g_kind g).
    + destruct (rl_get c (l_reads s)) as [[|n]|]; inversion H0; subst; simpl; intuition congruence.
    + destruct (l_write s) as [w|]; [|inversion H0; subst; simpl; intuition congruence].
      destruct (w =? c); inversion H0; subst; simpl; intuition congruence.
  - destruct (find_guard s i) as [g|]; [|discriminate]. destruct (g_tracked g); [discriminate|]. inversion E; subst.
    unfold l_release; destruct (is_write g && panicking); simpl; intuition congruence.
  - destruct (can_read s); inversion E; subst; simpl; intuition congruence.
  - destruct (can_write s); inversion E; subst; simpl; intuition congruence.
Qed.
Lemma run_mpoison : forall ops s s' rs, l_run s ops = Some (s', rs) -> (l_mpoison s' = true <-> l_mpoison s = true \/ In RPanic rs).
Proof.
  induction ops as [|op t IH]; simpl; intros s s' rs E; [inversion E; subst; simpl; tauto|].
  destruct (l_step s op) as [[s1 r]|] eqn:ES; [|discriminate].
  destruct (l_run s1 t) as [[s2 rs2]|] eqn:ER; [|discriminate]. inversion E; subst.
  rewrite (IH _ _ _ ER), (step_mpoison _ _ _ _ ES). simpl. tauto.
Qed.
Lemma run_alive : forall ops s rs, l_run l_init ops = Some (s, rs) -> ~ In RPanic rs -> l_mpoison s = false.
Proof.
  intros ops s rs E N. destruct (l_mpoison s) eqn:M; auto. apply (run_mpoison _ _ _ _ E) in M. destruct M as [M|M]; [discriminate|contradiction].
Qed.
Lemma run_app : forall a b s s' rs, l_run s (a ++ b) = Some (s', rs) ->
  exists s1 r1 r2, l_run s a = Some (s1, r1) /\ l_run s1 b = Some (s', r2) /\ rs = r1 ++ r2.
Proof.
  induction a as [|op t IH]; simpl; intros b s s' rs E; [exists s, [], rs; auto|].
  destruct (l_step s op) as [[s1 r]|]; [|discriminate].
  destruct (l_run s1 (t ++ b)) as [[s2 rs2]|] eqn:ER; [|discriminate]. inversion E; subst.
  destruct (IH _ _ _ _ ER) as (s3 & r1 & r2 & A & B & ->). exists s3, (r :: r1), r2. rewrite A. auto.
Qed.
