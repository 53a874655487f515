(* Lock_props.v - property C79: the tracking lock around a disk image (crates/ff_egui_lib/src/tracking_lock.rs) and the locks of
   src/disk_lock.rs.  Schedules are lists of atomic steps of any number of threads, of any length. *)
From Coq Require Import List Lia Bool PeanoNat.
From Verif Require Import Base Lock_model Lock_spec Lock_proofs.
Import ListNotations.

(* Whatever the threads do, with guards of either lock type, panics and poisoning: a write guard is the only guard alive. *)
Theorem C79_exclusive : forall ops s rs g, l_run l_init ops = Some (s, rs) ->
  In g (l_live s) -> g_kind g = KWrite -> l_live s = [g].
Proof. intros ops s rs g E I K. apply (i_excl _ (inv0_run _ _ _ E) g I). unfold is_write; rewrite K; auto. Qed.

(* Between drops, TrackingLock is exact: read succeeds iff no write guard is alive and otherwise names its holder; write succeeds
   iff no guard is alive and otherwise names exactly the contexts that hold one, each once; refusals change nothing. *)
Theorem C79_exact : forall ops s rs c, Forall calm_op ops -> l_run l_init ops = Some (s, rs) -> ~ In RPanic rs -> ~ mid_drop s ->
  ((forall w, ~ writer s w) -> exists s' i, l_step s (LRead c) = Some (s', RGuard i)
     /\ l_live s' = mkGuard i KRead (Some c) true :: l_live s /\ (forall g, In g (l_live s) -> g_id g <> i))
  /\ (forall w, writer s w -> l_step s (LRead c) = Some (s, RErr [w]))
  /\ (l_live s = [] -> exists s' i, l_step s (LWrite c) = Some (s', RGuard i) /\ l_live s' = [mkGuard i KWrite (Some c) true])
  /\ (l_live s <> [] -> exists hs, l_step s (LWrite c) = Some (s, RErr hs) /\ NoDup hs /\ (forall d, In d hs <-> holder s d)).
Proof.
  intros ops s rs c F E NP ND. destruct (invc_run _ _ _ F E) as [I [A B D]].
  pose proof (run_alive _ _ _ E NP) as M. destruct (D M) as (R & N & W).
  assert (TR : forall g, In g (l_live s) -> g_tracked g = true).
  { intros g J. destruct (g_tracked g) eqn:T; auto. exfalso; apply ND; exists g; auto. }
  assert (WW : forall d, l_write s = Some d <-> writer s d).
  { intros d; rewrite W, tcount_pos. split; intros (g & J & K & C); exists g; intuition. }
  assert (RR : forall d, In d (map fst (l_reads s)) <-> exists g, In g (l_live s) /\ g_kind g = KRead /\ g_ctx g = Some d).
  { intros d; rewrite in_get, R. split.
    - intros Q. assert (P : 0 < tcount KRead d (l_live s)) by (destruct (tcount KRead d (l_live s)); [congruence|lia]).
      apply tcount_pos in P; destruct P as (g & P); exists g; tauto.
    - intros (g & J & K & C). assert (P : 0 < tcount KRead d (l_live s)) by (apply tcount_pos; exists g; auto).
      destruct (tcount KRead d (l_live s)); [lia|discriminate]. }
  simpl. unfold l_read, l_write_op. rewrite M. repeat split.
  - intros NW. destruct (l_write s) as [w|] eqn:EW; [exfalso; apply (NW w), WW; auto|].
    assert (CR : can_read s = true).
    { apply can_read_spec; split; auto. intros g J. destruct (is_write g) eqn:V; auto. exfalso.
      destruct (g_ctx g) as [d|] eqn:G; [|exact (B g J G)]. apply (NW d); exists g; repeat split; auto.
      unfold is_write in V; destruct (g_kind g); congruence. }
    rewrite CR. eexists; exists (l_next s). split; [reflexivity|]. split; auto.
    intros g J. pose proof (i_lt _ I g J). lia.
  - intros w Q. apply WW in Q. rewrite Q. auto.
  - intros L. rewrite L in *. destruct (l_reads s) as [|[k n] t] eqn:ER.
    2:{ specialize (RR k); simpl in RR. destruct RR as [RR _]. destruct RR as (g & [] & _); auto. }
    destruct (l_write s) as [w|] eqn:EW; [destruct (proj1 (WW w)) as (g & J & _); auto; rewrite L in J; destruct J|].
    assert (CW : can_write (with_write s (Some c)) = true) by (apply can_write_spec; simpl; auto).
    rewrite CW. eexists; exists (l_next s). split; [reflexivity|]. simpl. rewrite L. auto.
  - intros L. destruct (l_reads s) as [|[k n] t] eqn:ER.
    + destruct (l_live s) as [|g l'] eqn:EL; [congruence|].
      assert (J : In g (l_live s)) by (rewrite EL; simpl; auto).
      destruct (g_ctx g) as [d|] eqn:G; [|exfalso; apply (B g); [rewrite <- EL; auto|auto]].
      destruct (g_kind g) eqn:K.
      { exfalso. apply (proj2 (RR d)). exists g. rewrite <- EL; auto. }
      assert (Q : l_write s = Some d) by (apply WW; exists g; auto).
      rewrite Q. exists [d]. split; auto. split; [repeat constructor; auto|].
      pose proof (i_excl _ I g J) as X. unfold is_write in X. rewrite K in X. specialize (X eq_refl).
      intros e. unfold holder. rewrite X. simpl. split.
      * intros [<-|[]]. exists g; auto.
      * intros (h & [<-|[]] & HC). left; congruence.
    + exists (map fst ((k, n) :: t)). split; auto. split; auto. intros d. rewrite RR. unfold holder. split.
      * intros (g & J & _ & C); exists g; auto.
      * intros (g & J & C). exists g; repeat split; auto. destruct (g_kind g) eqn:K; auto. exfalso.
        assert (P : In k (map fst ((k, n) :: t))) by (simpl; auto). apply RR in P. destruct P as (h & P & KR & _).
        pose proof (i_excl _ I g J) as X. unfold is_write in X. rewrite K in X. rewrite (X eq_refl) in P. destruct P as [<-|[]]. congruence.
Qed.

(* A schedule that never runs a step in the middle of a drop never panics: the panics of TrackingLock need such a step. *)
Lemma untrack_fine : forall s g c, Inv0 s -> InvC s -> l_mpoison s = false -> In g (l_live s) -> g_ctx g = Some c -> g_tracked g = true ->
  snd (l_untrack s g c) = RDone.
Proof.
  intros s g c I [A B D] M J C T. destruct (D M) as (R & N & W). unfold l_untrack; cbn [l_mpoison with_live l_reads l_write]. rewrite M.
  destruct (g_kind g) eqn:K.
  - assert (P : 0 < tcount KRead c (l_live s)) by (apply tcount_pos; exists g; auto).
    rewrite R. destruct (tcount KRead c (l_live s)); [lia|auto].
  - destruct (l_write s) as [w|]; auto. destruct (w =? c); auto.
Qed.
Lemma untrack_panic_free : forall ops s rs i s' r, Forall calm_op ops -> l_run l_init ops = Some (s, rs) -> ~ In RPanic rs ->
  l_step s (LUntrack i) = Some (s', r) -> r = RDone.
Proof.
  intros ops s rs i s' r F E NP ES. destruct (invc_run _ _ _ F E) as [I V]. pose proof (run_alive _ _ _ E NP) as M.
  simpl in ES. destruct (find_guard s i) as [g|] eqn:FG; [|discriminate]. apply find_in in FG; destruct FG as [J _].
  destruct (g_ctx g) as [c|] eqn:C; [|discriminate]. destruct (g_tracked g) eqn:T; [|discriminate].
  inversion ES. pose proof (untrack_fine s g c I V M J C T) as U. rewrite H0 in U; auto.
Qed.
Theorem C79_panic_only_mid_drop : forall ops s rs op s', Forall calm_op ops -> l_run l_init ops = Some (s, rs) -> ~ In RPanic rs ->
  l_step s op = Some (s', RPanic) -> (exists c, op = LRead c \/ op = LWrite c) /\ mid_drop s.
Proof.
  intros ops s rs op s' F E NP ES.
  assert (DM : mid_drop s \/ ~ mid_drop s).
  { unfold mid_drop. induction (l_live s) as [|g l IH]; [right; intros (g & [] & _)|].
    destruct (g_tracked g) eqn:T.
    - destruct IH as [(h & J & U)|IH]; [left; exists h; simpl; auto|right; intros (h & [<-|J] & U); [congruence|apply IH; exists h; auto]].
    - left; exists g; simpl; auto. }
  pose proof (C79_exact ops s rs) as X.
  destruct op; [| | | simpl in ES; destruct (find_guard s i) as [g|]; [destruct (g_tracked g)|]; discriminate
    | simpl in ES; destruct (can_read s); discriminate | simpl in ES; destruct (can_write s); discriminate].
  - split; [exists c; auto|]. destruct DM as [|ND]; auto. exfalso. destruct (X c F E NP ND) as (X1 & X2 & _).
    destruct (l_write s) as [w|] eqn:EW.
    + simpl in ES. unfold l_read in ES. rewrite (run_alive _ _ _ E NP), EW in ES. discriminate.
    + destruct X1 as (s1 & i & Y & _); [|rewrite ES in Y; discriminate].
      intros w Q. rewrite (X2 w Q) in ES. discriminate.
  - split; [exists c; auto|]. destruct DM as [|ND]; auto. exfalso. destruct (X c F E NP ND) as (_ & _ & X1 & X2).
    destruct (l_live s) eqn:EL.
    + destruct X1 as (s1 & i & Y & _); auto. rewrite ES in Y; discriminate.
    + destruct X2 as (hs & Y & _); [discriminate|]. rewrite ES in Y; discriminate.
  - exfalso. pose proof (untrack_panic_free _ _ _ _ _ _ F E NP ES). discriminate.
Qed.

(* One thread (a guard is dropped in one go): no panic, ever, and the tracking is exact after every step. *)
Lemma settled_run : forall prog a s0 ra s rs, Forall calm_op a -> l_run l_init a = Some (s0, ra) -> ~ In RPanic ra -> ~ mid_drop s0 ->
  l_run s0 (flat_map client_ops prog) = Some (s, rs) -> ~ In RPanic rs /\ ~ mid_drop s.
Proof.
  induction prog as [|x t IH]; simpl; intros a s0 ra s rs F E NP ND ER; [inversion ER; subst; auto|].
  apply run_app in ER. destruct ER as (s1 & r1 & r2 & E1 & E2 & ->).
  assert (FX : Forall calm_op (client_ops x)) by (destruct x; repeat constructor).
  assert (X : ~ In RPanic r1 /\ ~ mid_drop s1).
  { destruct (invc_run _ _ _ F E) as [I V]. pose proof (run_alive _ _ _ E NP) as M.
    destruct x as [c|c|i]; simpl client_ops in E1.
    - cbn [l_run] in E1. destruct (l_step s0 (LRead c)) as [[s2 r]|] eqn:ES; [|discriminate]. inversion E1; subst.
      split.
      + intros [Q|[]]; subst. apply (C79_panic_only_mid_drop _ _ _ _ _ F E NP) in ES. tauto.
      + intros (g & J & T). apply ND. simpl in ES. inversion ES. unfold l_read in H0. rewrite M in H0.
        destruct (l_write s0); [inversion H0; subst; exists g; auto|].
        destruct (can_read s0); inversion H0; subst; simpl in J; [destruct J as [<-|J]; [discriminate|]|]; exists g; auto.
    - cbn [l_run] in E1. destruct (l_step s0 (LWrite c)) as [[s2 r]|] eqn:ES; [|discriminate]. inversion E1; subst.
      split.
      + intros [Q|[]]; subst. apply (C79_panic_only_mid_drop _ _ _ _ _ F E NP) in ES. tauto.
      + intros (g & J & T). apply ND. simpl in ES. inversion ES. unfold l_write_op in H0. rewrite M in H0.
        destruct (l_reads s0); [|inversion H0; subst; exists g; auto].
        destruct (l_write s0); [inversion H0; subst; exists g; auto|].
        destruct (can_write _); inversion H0; subst; simpl in J; [destruct J as [<-|J]; [discriminate|]|]; exists g; auto.
    - cbn [l_run] in E1. destruct (l_step s0 (LUntrack i)) as [[s2 r]|] eqn:ES; [|discriminate].
      destruct (l_step s2 (LRelease i false)) as [[s3 r']|] eqn:ES2; [|discriminate]. inversion E1; subst.
      pose proof (untrack_panic_free _ _ _ _ _ _ F E NP ES) as ->.
      simpl in ES2. destruct (find_guard s2 i) as [h|] eqn:FH; [|discriminate]. destruct (g_tracked h) eqn:TH; [discriminate|].
      inversion ES2; subst. split; [intros [Q|[Q|[]]]; discriminate|].
      apply find_in in FH. destruct FH as [_ HI].
      intros (g & J & T). unfold l_release in J. rewrite andb_false_r in J. simpl in J. apply filter_In in J. destruct J as [J NE].
      simpl in ES. destruct (find_guard s0 i) as [k|] eqn:FK; [|discriminate]. apply find_in in FK. destruct FK as [_ KI].
      destruct (g_ctx k) as [c|]; [|discriminate]. destruct (g_tracked k); [|discriminate]. inversion ES.
      destruct (untrack_live s0 k c) as (L & _ & _). rewrite H0 in L; simpl in L. rewrite L in J.
      apply in_map_iff in J. destruct J as (g0 & <- & J). rewrite mark_id in NE. unfold mark_untracked in T.
      rewrite KI in T. rewrite HI in NE. destruct (g_id g0 =? i) eqn:Q; [simpl in NE; congruence|]. apply ND; exists g0; auto. }
  destruct X as [X1 X2].
  assert (E' : l_run l_init (a ++ client_ops x) = Some (s1, ra ++ r1)).
  { clear - E E1. revert ra E. generalize l_init. induction a as [|op a IH]; simpl; intros s ra E; [inversion E; subst; auto|].
    destruct (l_step s op) as [[s2 r]|]; [|discriminate]. destruct (l_run s2 a) as [[s3 r3]|] eqn:Q; [|discriminate].
    inversion E; subst. rewrite (IH _ _ Q). auto. }
  destruct (IH (a ++ client_ops x) s1 (ra ++ r1) s r2) as [Y1 Y2]; auto.
  - apply Forall_app; auto.
  - rewrite in_app_iff; tauto.
  - split; auto. rewrite in_app_iff; tauto.
Qed.
Theorem C79_sequential : forall prog s rs, l_run l_init (flat_map client_ops prog) = Some (s, rs) -> ~ In RPanic rs /\ ~ mid_drop s.
Proof.
  intros prog s rs E. apply (settled_run prog [] l_init [] s rs); simpl; auto. intros (g & [] & _).
Qed.

(* FALSE: two threads.  While a write guard is between its drop body and the release of the RwLock, read and write panic. *)
Theorem C79_race_refuted : forall ops s rs g c, Forall calm_op ops -> l_run l_init ops = Some (s, rs) -> ~ In RPanic rs ->
  In g (l_live s) -> g_kind g = KWrite -> g_tracked g = false ->
  option_map snd (l_step s (LRead c)) = Some RPanic /\ option_map snd (l_step s (LWrite c)) = Some RPanic.
Proof.
  intros ops s rs g c F E NP J K T. destruct (invc_run _ _ _ F E) as [I [A B D]].
  pose proof (run_alive _ _ _ E NP) as M. destruct (D M) as (R & N & W).
  assert (V : is_write g = true) by (unfold is_write; rewrite K; auto).
  pose proof (i_excl _ I g J V) as L.
  assert (Z : forall k d, tcount k d (l_live s) = 0) by (intros; rewrite L; unfold tcount; simpl; unfold tsel; rewrite T; auto).
  assert (EW : l_write s = None).
  { destruct (l_write s) as [w|]; auto. pose proof (proj1 (W w) eq_refl). rewrite Z in H; lia. }
  assert (ER : l_reads s = []).
  { destruct (l_reads s) as [|[k n] t]; auto. specialize (R k). rewrite Z in R. simpl in R. rewrite Nat.eqb_refl in R. discriminate. }
  simpl. unfold l_read, l_write_op. rewrite M, EW, ER.
  assert (CR : can_read s = false) by (unfold can_read; rewrite L; simpl; rewrite V; auto).
  assert (CW : can_write (with_write s (Some c)) = false) by (unfold can_write; simpl; rewrite L; auto).
  rewrite CR, CW. auto.
Qed.
Example C79_race_example : option_map snd (l_run l_init [LWrite 1; LUntrack 0; LRead 2; LRelease 0 false; LRead 2; LWrite 1])
  = Some [RGuard 0; RDone; RPanic; RDone; RPanic; RPanic].
Proof. reflexivity. Qed.
(* ... and a write panics while the last reader is between the two. *)
Theorem C79_race_read_refuted : option_map snd (l_run l_init [LRead 1; LUntrack 0; LWrite 2; LRelease 0 false; LWrite 2])
  = Some [RGuard 0; RDone; RPanic; RDone; RPanic].
Proof. reflexivity. Qed.

(* FALSE: after one panic the lock is not usable again: its mutex is poisoned and every later read, write and guard drop panics. *)
Lemma mpoison_step : forall s op s' r, l_mpoison s = true -> l_step s op = Some (s', r) -> uses_mutex op -> r = RPanic.
Proof.
  intros s op s' r M E U. destruct op; simpl in U; try contradiction; simpl in E.
  - unfold l_read in E; rewrite M in E; congruence.
  - unfold l_write_op in E; rewrite M in E; congruence.
  - destruct (find_guard s i) as [g|]; [|discriminate]. destruct (g_ctx g); [|discriminate]. destruct (g_tracked g); [|discriminate].
    unfold l_untrack in E; cbn [l_mpoison with_live] in E; rewrite M in E; congruence.
Qed.
Theorem C79_broken_refuted : forall s op ops s' rs, l_run s (op :: ops) = Some (s', RPanic :: rs) ->
  Forall2 (fun o r => uses_mutex o -> r = RPanic) ops rs.
Proof.
  intros s op ops s' rs E. simpl in E. destruct (l_step s op) as [[s1 r]|] eqn:ES; [|discriminate].
  destruct (l_run s1 ops) as [[s2 r2]|] eqn:ER; [|discriminate]. inversion E; subst.
  assert (M : l_mpoison s1 = true) by (apply (step_mpoison _ _ _ _ ES); auto). clear ES E.
  revert s1 s' rs ER M. induction ops as [|o t IH]; simpl; intros s1 s' rs ER M; [inversion ER; constructor|].
  destruct (l_step s1 o) as [[s3 r]|] eqn:ES; [|discriminate].
  destruct (l_run s3 t) as [[s4 r4]|] eqn:E4; [|discriminate]. inversion ER; subst. constructor.
  - intros U. eapply mpoison_step; eauto.
  - eapply IH; eauto. apply (step_mpoison _ _ _ _ ES); auto.
Qed.

(* FALSE: a thread that panics while it holds a write guard makes the image unavailable: no lock of either type succeeds again. *)
Theorem C79_unwind_refuted : forall s i g s' r ops s2 rs, In g (l_live s) -> g_kind g = KWrite ->
  find_guard s i = Some g -> l_step s (LRelease i true) = Some (s', r) -> l_run s' ops = Some (s2, rs) ->
  forall j, ~ In (RGuard j) rs.
Proof.
  intros s i g s' r ops s2 rs J K FG E ER j.
  assert (P : l_rpoison s' = true).
  { simpl in E. rewrite FG in E. destruct (g_tracked g); [discriminate|]. inversion E; subst. unfold l_release, is_write. rewrite K. auto. }
  clear E FG J K. revert s' rs P ER. induction ops as [|o t IH]; simpl; intros s' rs P ER; [inversion ER; subst; simpl; auto|].
  destruct (l_step s' o) as [[s3 r1]|] eqn:ES; [|discriminate].
  destruct (l_run s3 t) as [[s4 r4]|] eqn:E4; [|discriminate]. inversion ER; subst.
  assert (CR : can_read s' = false) by (unfold can_read; rewrite P; apply andb_false_r).
  assert (CW : forall w, can_write (with_write s' w) = false) by (intros; unfold can_write; simpl; rewrite P; destruct (l_live s'); auto).
  assert (CW' : can_write s' = false) by (unfold can_write; rewrite P; destruct (l_live s'); auto).
  assert (X : l_rpoison s3 = true /\ r1 <> RGuard j).
  { destruct o; simpl in ES.
    - unfold l_read in ES. destruct (l_mpoison s'); [inversion ES; subst; split; congruence|].
      destruct (l_write s'); [inversion ES; subst; split; congruence|]. rewrite CR in ES. inversion ES; subst; simpl; split; congruence.
    - unfold l_write_op in ES. destruct (l_mpoison s'); [inversion ES; subst; split; congruence|].
      destruct (l_reads s'); [|inversion ES; subst; split; congruence].
      destruct (l_write s'); [inversion ES; subst; split; congruence|]. rewrite CW in ES. inversion ES; subst; simpl; split; congruence.
    - destruct (find_guard s' i0) as [h|]; [|discriminate]. destruct (g_ctx h) as [c|]; [|discriminate]. destruct (g_tracked h); [|discriminate].
      inversion ES. destruct (untrack_live s' h c) as (_ & _ & Q). rewrite H0 in Q; simpl in Q. split; [congruence|].
      unfold l_untrack in H0; cbn [l_mpoison with_live l_reads l_write] in H0.
      destruct (l_mpoison s'); [inversion H0; congruence|]. destruct (g_kind h).
      + destruct (rl_get c (l_reads s')) as [[|n]|]; inversion H0; congruence.
      + destruct (l_write s') as [w|]; [destruct (w =? c)|]; inversion H0; congruence.
    - destruct (find_guard s' i0) as [h|]; [|discriminate]. destruct (g_tracked h); [discriminate|]. inversion ES; subst.
      unfold l_release. destruct (is_write h && panicking); simpl; split; congruence.
    - rewrite CR in ES. inversion ES; subst; split; congruence.
    - rewrite CW' in ES. inversion ES; subst; split; congruence. }
  destruct X as [X Y]. intros [Q|Q]; [congruence|]. exact (IH _ _ X E4 Q).
Qed.
Example C79_unwind_example : option_map snd (l_run l_init [LWrite 1; LUntrack 0; LRelease 0 true; LForeignRead; LForeignWrite; LRead 2; LRead 3])
  = Some [RGuard 0; RDone; RDone; RErr []; RErr []; RPanic; RPanic].
Proof. reflexivity. Qed.

(* FALSE: a TrackingLock and a NonTrackingDiskLock of one image (the From conversions) do not see each other. *)
Theorem C79_foreign_refuted :
  option_map snd (l_run l_init [LForeignRead; LWrite 1]) = Some [RGuard 0; RPanic]
  /\ option_map snd (l_run l_init [LForeignWrite; LRead 1]) = Some [RGuard 0; RPanic]
  /\ option_map snd (l_run l_init [LForeignWrite; LWrite 1; LRelease 0 false; LRead 1]) = Some [RGuard 0; RPanic; RDone; RPanic].
Proof. repeat split. Qed.

(* NonTrackingDiskLock never panics, read succeeds iff no write guard is alive and the lock is not poisoned, write iff no guard is
   alive and it is not; it never names a holder: the list of a refused write is always empty. *)
Theorem C79_nontracking : forall s op, op = LForeignRead \/ op = LForeignWrite ->
  exists s' r, l_step s op = Some (s', r)
  /\ (r = RErr [] /\ s' = s \/ r = RGuard (l_next s))
  /\ (op = LForeignRead -> (r = RGuard (l_next s) <-> (forall g, In g (l_live s) -> g_kind g = KRead) /\ l_rpoison s = false))
  /\ (op = LForeignWrite -> (r = RGuard (l_next s) <-> l_live s = [] /\ l_rpoison s = false)).
Proof.
  intros s op [-> | ->]; simpl.
  - assert (X : can_read s = true <-> (forall g, In g (l_live s) -> g_kind g = KRead) /\ l_rpoison s = false).
    { rewrite can_read_spec. split; intros [A B]; split; auto; intros g J; specialize (A g J); unfold is_write in *; destruct (g_kind g); congruence. }
    destruct (can_read s) eqn:C; eexists; eexists; (split; [reflexivity|]); (split; [auto|]); split; try discriminate; intros _; rewrite <- X; intuition congruence.
  - pose proof (can_write_spec s) as X.
    destruct (can_write s) eqn:C; eexists; eexists; (split; [reflexivity|]); (split; [auto|]); split; try discriminate; intros _; rewrite <- X; intuition congruence.
Qed.

(* RefLock returns Ok or panics: a conflict is never the Err of its signature. *)
Theorem C79_reflock_refuted : forall readers,
  (ref_read readers = Panic <-> readers = None) /\ (ref_write readers = Panic <-> readers <> Some 0)
  /\ (forall e, ref_read readers <> Err e) /\ (forall e, ref_write readers <> Err e).
Proof. intros [[|n]|]; simpl; repeat split; intros; congruence. Qed.

(* the hypotheses of C79_exact, C79_race_refuted and C79_sequential are met by schedules with two readers, a writer, drops *)
Example C79_witness :
  option_map snd (l_run l_init (flat_map client_ops [CRead 1; CRead 1; CRead 2; CWrite 3; CDrop 0; CWrite 3; CDrop 1; CDrop 2; CWrite 3; CRead 1; CDrop 3; CRead 1]))
  = Some [RGuard 0; RGuard 1; RGuard 2; RErr [1; 2]; RDone; RDone; RErr [1; 2]; RDone; RDone; RDone; RDone; RGuard 3; RErr [3]; RDone; RDone; RGuard 4].
Proof. reflexivity. Qed.

Print Assumptions C79_exclusive.
Print Assumptions C79_exact.
Print Assumptions C79_panic_only_mid_drop.
Print Assumptions C79_sequential.
Print Assumptions C79_race_refuted.
Print Assumptions C79_race_read_refuted.
Print Assumptions C79_broken_refuted.
Print Assumptions C79_unwind_refuted.
Print Assumptions C79_foreign_refuted.
Print Assumptions C79_nontracking.
Print Assumptions C79_reflock_refuted.
