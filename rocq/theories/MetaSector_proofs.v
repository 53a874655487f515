(* MetaSector_proofs.v *)
From Verif Require Import Base Base_lemmas Chs_model Chs_proofs Types_model MetaSector_model MetaSector_spec.

Lemma agrees_iff q id : query_matches q id = true <-> agrees q id.
Proof. apply query_matches_iff. Qed.
Lemma agrees_dec q id : {agrees q id} + {~ agrees q id}.
Proof. destruct (query_matches q id) eqn:E; [left|right]; rewrite <- agrees_iff; congruence. Qed.
Lemma chsn_eqb_iff a b : chsn_eqb a b = true <-> a = b.
Proof.
  destruct a as [[c h s] n], b as [[c' h' s'] n']. unfold chsn_eqb, chsn_c, chsn_h, chsn_s. cbn [chsn_chs chsn_n chs_c chs_h chs_s].
  rewrite !andb_true_iff, !N.eqb_eq. split; [intros (((-> & ->) & ->) & ->); reflexivity|intros [= -> -> -> ->]; auto].
Qed.

(* positions of the matching sectors *)
Definition positions (q : DiskChsnQuery) (s : nat) (ids : list DiskChsn) : list nat :=
  map fst (filter (fun p => query_matches q (snd p)) (combine (seq s (length ids)) ids)).
Lemma positions_cons q s id ids :
  positions q s (id :: ids) = (if query_matches q id then [s] else []) ++ positions q (S s) ids.
Proof. unfold positions. cbn [length seq combine filter snd]. destruct (query_matches q id); reflexivity. Qed.
Lemma in_positions q s ids i :
  In i (positions q s ids) <-> s <= i /\ exists id, nth_error ids (i - s) = Some id /\ agrees q id.
Proof.
  revert s; induction ids as [|id ids IH]; intros s.
  - unfold positions; cbn. split; [intros []|intros (_ & id & H & _)]. destruct (i - s); discriminate.
  - rewrite positions_cons, in_app_iff, IH.
    assert (E : In i (if query_matches q id then [s] else []) <-> i = s /\ agrees q id).
    { rewrite <- agrees_iff. destruct (query_matches q id); cbn [In]; intuition congruence. }
    rewrite E. split.
    + intros [[-> H]|(H1 & x & H2 & H3)].
      * split; [lia|]. exists id. rewrite Nat.sub_diag. auto.
      * split; [lia|]. exists x. replace (i - s) with (S (i - S s)) by lia. auto.
    + intros (H1 & x & H2 & H3). destruct (i - s) as [|k] eqn:Ek.
      * injection H2 as <-. left. split; [lia|auto].
      * right. split; [lia|]. exists x. cbn [nth_error] in H2. replace (i - S s) with k by lia. auto.
Qed.
Lemma positions_sorted q s ids i l : positions q s ids = i :: l -> forall j, In j l -> i < j.
Proof.
  revert s i l; induction ids as [|id ids IH]; intros s i l; [unfold positions; cbn; discriminate|].
  rewrite positions_cons. destruct (query_matches q id); cbn [app].
  - intros [= <- <-] j Hj. apply in_positions in Hj. lia.
  - apply IH.
Qed.
Lemma positions_nodup q s ids : NoDup (positions q s ids).
Proof.
  revert s; induction ids as [|id ids IH]; intros s; [constructor|].
  rewrite positions_cons. destruct (query_matches q id); cbn [app]; auto.
  constructor; auto. rewrite in_positions. lia.
Qed.
Lemma sm_idx_eq t q : sm_idx (match_sectors t q) = positions q 0 (ids_of t).
Proof. reflexivity. Qed.
Lemma positions_nil q ids : positions q 0 ids = [] <-> absent ids q.
Proof.
  split.
  - intros E id Hin Ha. apply In_nth_error in Hin as [i Hi].
    assert (H : In i (positions q 0 ids)) by (apply in_positions; split; [lia|]; exists id; rewrite Nat.sub_0_r; auto).
    rewrite E in H. destruct H.
  - intros H. destruct (positions q 0 ids) as [|i l] eqn:E; auto.
    assert (Hi : In i (positions q 0 ids)) by (rewrite E; left; auto).
    apply in_positions in Hi as (_ & id & Hn & Ha). rewrite Nat.sub_0_r in Hn.
    exfalso. apply (H id); auto. eapply nth_error_In; eauto.
Qed.
Lemma positions_first q ids i l : positions q 0 ids = i :: l -> first_match ids q i.
Proof.
  intros E. assert (Hi : In i (positions q 0 ids)) by (rewrite E; left; auto).
  apply in_positions in Hi as (_ & id & Hn & Ha). rewrite Nat.sub_0_r in Hn. split; [eauto|].
  intros j id' Hj Hn' Ha'.
  assert (Hin : In j (positions q 0 ids)) by (apply in_positions; split; [lia|]; exists id'; rewrite Nat.sub_0_r; auto).
  rewrite E in Hin. destruct Hin as [<-|Hin]; [lia|]. apply (positions_sorted _ _ _ _ _ E) in Hin. lia.
Qed.
Lemma first_match_positions q ids i : first_match ids q i -> exists l, positions q 0 ids = i :: l.
Proof.
  intros [(id & Hn & Ha) Hf].
  assert (Hin : In i (positions q 0 ids)) by (apply in_positions; split; [lia|]; exists id; rewrite Nat.sub_0_r; auto).
  destruct (positions q 0 ids) as [|k l] eqn:E; [destruct Hin|]. exists l. f_equal.
  destruct (positions_first q ids k l E) as [(id' & Hn' & Ha') Hf'].
  destruct (Nat.lt_total i k) as [H|[H|H]]; auto; exfalso.
  - apply (Hf' i id); auto.
  - apply (Hf k id'); auto.
Qed.
Lemma positions_only q ids i : positions q 0 ids = [i] <-> only_match ids q i.
Proof.
  split.
  - intros E. destruct (positions_first q ids i [] E) as [H1 _]. split; auto.
    intros j id Hj Hn Ha.
    assert (Hin : In j (positions q 0 ids)) by (apply in_positions; split; [lia|]; exists id; rewrite Nat.sub_0_r; auto).
    rewrite E in Hin. destruct Hin as [<-|[]]; auto.
  - intros [H1 H2]. destruct (first_match_positions q ids i) as (l & E).
    { split; auto. intros j id Hj. apply H2. lia. }
    rewrite E. f_equal. destruct l as [|k l]; auto.
    assert (Hin : In k (positions q 0 ids)) by (rewrite E; right; left; auto).
    pose proof (positions_sorted _ _ _ _ _ E k (or_introl eq_refl)).
    apply in_positions in Hin as (_ & id & Hn & Ha). rewrite Nat.sub_0_r in Hn.
    exfalso. apply (H2 k id); auto; lia.
Qed.

(* flags *)
Lemma existsb_prop {A} (f : A -> bool) l (P : A -> Prop) : (forall x, f x = true <-> P x) ->
  (existsb f l = true <-> exists x, In x l /\ P x).
Proof. intros H. rewrite existsb_exists. split; intros (x & Hx & Hp); exists x; split; auto; apply H; auto. Qed.
Lemma flags_spec t q :
  (sm_wrong_cylinder (match_sectors t q) = true <-> other_cylinder (ids_of t) q) /\
  (sm_bad_cylinder (match_sectors t q) = true <-> cylinder_ff (ids_of t)) /\
  (sm_wrong_head (match_sectors t q) = true <-> other_head (ids_of t) q).
Proof.
  cbn [match_sectors sm_wrong_cylinder sm_bad_cylinder sm_wrong_head]. fold (ids_of t). repeat split.
  - intros H. apply existsb_exists in H as (id & Hin & H). destruct (q_c q) as [c|] eqn:E; [|discriminate].
    exists id, c. repeat split; auto. destruct (N.eqb_spec (chsn_c id) c); [discriminate|auto].
  - intros (id & c & Hin & E & H). apply existsb_exists. exists id. split; auto. rewrite E.
    destruct (N.eqb_spec (chsn_c id) c); [contradiction|auto].
  - intros H. apply existsb_exists in H as (id & Hin & H). exists id. split; auto. apply N.eqb_eq; auto.
  - intros (id & Hin & H). apply existsb_exists. exists id. split; auto. apply N.eqb_eq; auto.
  - intros H. apply existsb_exists in H as (id & Hin & H). destruct (q_h q) as [c|] eqn:E; [|discriminate].
    exists id, c. repeat split; auto. destruct (N.eqb_spec (chsn_h id) c); [discriminate|auto].
  - intros (id & c & Hin & E & H). apply existsb_exists. exists id. split; auto. rewrite E.
    destruct (N.eqb_spec (chsn_h id) c); [contradiction|auto].
Qed.

Lemma blend_zero i rnd masks data : Forall (eq 0%N) masks -> blend i rnd masks data = Ok data.
Proof.
  intros H. revert i data; induction H as [|m ms <- _ IH]; intros i data; cbn [blend]; auto.
  destruct data as [|d ds]; cbn [N.eqb]; [apply IH|]. rewrite IH. reflexivity.
Qed.
Lemma combine_zero a b : Forall (eq 0%N) a -> Forall (eq 0%N) b ->
  Forall (eq 0%N) (map (fun p => N.lor (fst p) (snd p)) (combine a b)).
Proof.
  intros Ha. revert b; induction Ha as [|x a <- _ IH]; intros b Hb; [constructor|].
  destruct Hb as [|y b <- Hb]; [constructor|]. cbn [combine map fst snd]. constructor; auto.
Qed.
Lemma clean_read rnd s : clean s -> ms_read_data rnd s = Ok (ms_data s).
Proof.
  intros (H1 & H2 & H3). unfold ms_read_data. rewrite H1. apply blend_zero, combine_zero; auto.
Qed.
(* in general only masked bits can differ from the stored data *)
Lemma blend_spec rnd masks : forall i data r, blend i rnd masks data = Ok r ->
  length r = length data /\
  forall k b d m v, nth_error data k = Some d -> nth_error masks k = Some m -> nth_error r k = Some v ->
    N.testbit v b = (if N.testbit m b then N.testbit (rnd (i + k)) b else N.testbit d b).
Proof.
  induction masks as [|m ms IH]; intros i data r; cbn [blend].
  - intros [= <-]. split; auto. intros k b d m v _ H. destruct k; discriminate.
  - destruct data as [|d ds].
    + destruct (m =? 0)%N; [|discriminate]. intros H. apply IH in H as [H1 _].
      destruct r; [|discriminate]. split; auto. intros k b d' m' v H. destruct k; discriminate.
    + destruct (blend (S i) rnd ms ds) as [r'| |] eqn:E; cbn [obind]; try discriminate. intros [= <-].
      apply IH in E as [H1 H2]. split; [cbn [length]; lia|].
      intros [|k] b d' m' v; cbn [nth_error].
      * intros [= <-] [= <-] [= <-]. rewrite Nat.add_0_r. destruct (N.eqb_spec m 0) as [->|Hm].
        -- rewrite N.bits_0. reflexivity.
        -- rewrite N.lor_spec, N.ldiff_spec, N.land_spec. destruct (N.testbit m b), (N.testbit d b), (N.testbit (rnd i) b); reflexivity.
      * intros A B C. rewrite <- Nat.add_succ_comm. apply (H2 k b d' m' v); auto.
Qed.

(* ---- writes ---- *)
(* everything but data and deleted mark *)
Definition fixed_part (s : MetaSector) := (ms_id s, ms_address_error s, ms_data_error s, ms_no_dam s, ms_weak s, ms_hole s, length (ms_data s)).
Definition same_frame (t t' : MetaSectorTrack) : Prop :=
  mt_ch t' = mt_ch t /\ map fixed_part (mt_sectors t') = map fixed_part (mt_sectors t).

Lemma map_upd {A B} (f : A -> B) l i x : map f (upd l i x) = upd (map f l) i (f x).
Proof. revert i; induction l as [|a l IH]; intros [|i]; cbn [upd map]; auto. rewrite IH; reflexivity. Qed.
Lemma upd_same {A} (l : list A) i x : nth_error l i = Some x -> upd l i x = l.
Proof. revert i; induction l as [|a l IH]; intros [|i]; cbn [upd nth_error]; try congruence. intros H; rewrite IH; auto. Qed.

Lemma frame_ids t t' : same_frame t t' -> ids_of t' = ids_of t.
Proof.
  intros [_ H]. unfold ids_of.
  apply (f_equal (map (fun x => fst (fst (fst (fst (fst (fst x)))))))) in H. rewrite !map_map in H. exact H.
Qed.
Lemma frame_nth t t' i s : same_frame t t' -> nth_error (mt_sectors t') i = Some s ->
  exists s0, nth_error (mt_sectors t) i = Some s0 /\ fixed_part s = fixed_part s0.
Proof.
  intros [_ H] Hn. apply (f_equal (fun l => nth_error l i)) in H. rewrite !nth_error_map, Hn in H. cbn [option_map] in H.
  destruct (nth_error (mt_sectors t) i) as [s0|]; [|discriminate]. exists s0. split; [reflexivity|]. cbn [option_map] in H. congruence.
Qed.

Lemma write_step_spec t w : wf_track t ->
  exists t', write_step t w = Ok t' /\ same_frame t t' /\
  forall i s, nth_error (mt_sectors t) i = Some s -> exists s', nth_error (mt_sectors t') i = Some s' /\
    (effective t i w -> ms_data s' = w_data w /\ ms_deleted s' = w_deleted w) /\
    (~ effective t i w -> s' = s).
Proof.
  intros WF. unfold write_step, mt_write_sector. rewrite sm_idx_eq.
  assert (NOOP : (forall i, ~ effective t i w) ->
    same_frame t t /\ forall i s, nth_error (mt_sectors t) i = Some s -> exists s', nth_error (mt_sectors t) i = Some s' /\
    (effective t i w -> ms_data s' = w_data w /\ ms_deleted s' = w_deleted w) /\ (~ effective t i w -> s' = s)).
  { intros H. split; [split; reflexivity|]. intros i s Hi. exists s. split; [auto|split; [intros E; destruct (H i E)|auto]]. }
  destruct (positions (w_query w) 0 (ids_of t)) as [|i0 l] eqn:Ep.
  - exists t. split; [reflexivity|]. apply NOOP. intros i [[(id & Hn & Ha) _] _].
    apply positions_nil in Ep. apply (Ep id); auto. eapply nth_error_In; eauto.
  - destruct l as [|k l].
    + pose proof (proj1 (positions_only _ _ _) Ep) as OM.
      pose proof OM as [(id & Hid & Ha) _]. unfold ids_of in Hid. rewrite nth_error_map in Hid.
      unfold oindex. destruct (nth_error (mt_sectors t) i0) as [s0|] eqn:Es; [|discriminate]. cbn [option_map] in Hid.
      injection Hid as <-. cbn [obind].
      pose proof WF as WF'. unfold wf_track in WF'. rewrite Forall_forall in WF'.
      pose proof (WF' s0 (nth_error_In _ _ Es)) as Hw. unfold wf_sector in Hw.
      assert (ONLY : forall i, only_match (ids_of t) (w_query w) i -> i = i0).
      { intros i Hi. apply positions_only in Hi. rewrite Ep in Hi. injection Hi; auto. }
      destruct (N.eqb_spec (n_to_bytes (chsn_n (ms_id s0))) (N.of_nat (length (w_data w)))) as [El|El]; cbn [negb].
      * destruct (ms_no_dam s0 || ms_address_error s0) eqn:Ew.
        -- cbn [obind]. rewrite (upd_same _ _ _ Es). exists t.
           split; [destruct t; reflexivity|]. apply NOOP.
           intros i [Hi (s & Hs & [Hw1 Hw2] & _)]. rewrite (ONLY i Hi) in Hs. rewrite Es in Hs. injection Hs as <-.
           rewrite Hw1, Hw2 in Ew. discriminate.
        -- apply orb_false_elim in Ew as [Ew1 Ew2].
           destruct (Nat.eqb_spec (length (ms_data s0)) (length (w_data w))) as [El2|El2]; [|exfalso; lia].
           cbn [negb obind]. eexists. split; [reflexivity|]. split.
           ++ split; [reflexivity|]. cbn [mt_sectors]. rewrite map_upd. apply upd_same.
              rewrite nth_error_map, Es. cbn [option_map]. f_equal. unfold fixed_part.
              cbn [ms_id ms_address_error ms_data_error ms_no_dam ms_weak ms_hole ms_data]. congruence.
           ++ cbn [mt_sectors]. intros i s Hi. destruct (Nat.eq_dec i i0) as [->|Hne].
              ** eexists. split; [apply nth_error_upd_same; apply nth_error_Some; congruence|]. split; [auto|].
                 intros Hn. exfalso. apply Hn. split; auto. exists s0. repeat split; auto.
              ** exists s. split; [rewrite nth_error_upd_other by auto; auto|]. split; [|auto].
                 intros [Hi' _]. exfalso. apply Hne. auto.
      * exists t. split; [reflexivity|]. apply NOOP.
        intros i [Hi (s & Hs & _ & Hl)]. rewrite (ONLY i Hi) in Hs. rewrite Es in Hs. injection Hs as <-. apply El. lia.
    + exists t. split; [reflexivity|]. apply NOOP. intros i [Hi _]. apply positions_only in Hi. congruence.
Qed.

Lemma frame_wf t t' : same_frame t t' -> wf_track t -> wf_track t'.
Proof.
  intros F W. unfold wf_track in *. rewrite Forall_forall in *. intros s Hs. apply In_nth_error in Hs as [i Hi].
  destruct (frame_nth t t' i s F Hi) as (s0 & H0 & E). specialize (W s0 (nth_error_In _ _ H0)).
  unfold wf_sector, fixed_part in *. injection E as E1 _ _ _ _ _ E7. rewrite E1, E7. exact W.
Qed.
Lemma frame_sym t t' : same_frame t t' -> same_frame t' t.
Proof. intros [A B]; split; auto. Qed.
Lemma frame_trans t t' t'' : same_frame t t' -> same_frame t' t'' -> same_frame t t''.
Proof. intros [A B] [C D]; split; congruence. Qed.
Lemma frame_effective t t' i w : same_frame t t' -> effective t' i w -> effective t i w.
Proof.
  intros F [H1 (s & Hs & [W1 W2] & Hl)]. split; [rewrite <- (frame_ids _ _ F); auto|].
  destruct (frame_nth t t' i s F Hs) as (s0 & H0 & E). exists s0. unfold fixed_part in E. injection E as _ E2 _ E4 _ _ E7.
  unfold writable. rewrite <- E2, <- E4, <- E7. auto.
Qed.
Lemma frame_effective_iff t t' i w : same_frame t t' -> (effective t' i w <-> effective t i w).
Proof. intros F; split; apply frame_effective; auto using frame_sym. Qed.

Lemma run_writes_spec h : forall t, wf_track t ->
  exists t', run_writes t h = Ok t' /\ same_frame t t' /\
  forall i s, nth_error (mt_sectors t) i = Some s -> exists s', nth_error (mt_sectors t') i = Some s' /\
    (forall w, last_such (effective t i) h w -> ms_data s' = w_data w /\ ms_deleted s' = w_deleted w) /\
    (Forall (fun w => ~ effective t i w) h -> s' = s).
Proof.
  unfold run_writes. induction h as [|w h IH] using rev_ind; intros t WF.
  - exists t. split; [reflexivity|]. split; [split; reflexivity|]. intros i s Hs. exists s. split; auto. split; auto.
    intros w (pre & post & E & _). destruct pre; discriminate.
  - destruct (IH t WF) as (t1 & E1 & F1 & H1).
    assert (WF1 : wf_track t1) by (apply (frame_wf t); auto).
    destruct (write_step_spec t1 w WF1) as (t2 & E2 & F2 & H2).
    exists t2. split.
    { clear - E1 E2. revert t E1. induction h as [|x h IHh]; intros t E1; cbn [app ofold] in *.
      - injection E1 as ->. rewrite E2. reflexivity.
      - destruct (write_step t x) as [tx| |]; cbn [obind] in *; try discriminate. auto. }
    split; [apply (frame_trans t t1); auto|].
    intros i s Hs. destruct (H1 i s Hs) as (s1 & Hs1 & L1 & N1). destruct (H2 i s1 Hs1) as (s2 & Hs2 & L2 & N2).
    exists s2. split; auto.
    assert (Dec : effective t i w \/ ~ effective t i w).
    { unfold effective. rewrite <- positions_only.
      destruct (list_eq_dec Nat.eq_dec (positions (w_query w) 0 (ids_of t)) [i]) as [Ep|Ep]; [|right; tauto].
      unfold writable. destruct (ms_no_dam s) eqn:A; [right; intros [_ (x & Hx & [Hw _] & _)]; congruence|].
      destruct (ms_address_error s) eqn:B; [right; intros [_ (x & Hx & [_ Hw] & _)]; congruence|].
      destruct (Nat.eq_dec (length (w_data w)) (length (ms_data s))) as [El|El].
      - left. split; auto. exists s. auto.
      - right. intros [_ (x & Hx & _ & Hl)]. congruence. }
    split.
    + intros w' (pre & post & E & Hw' & Hpost).
      destruct post as [|y post _] using rev_ind.
      * apply app_inj_tail in E as [-> ->]. apply L2. apply (frame_effective_iff t t1); auto.
      * rewrite app_comm_cons, app_assoc in E. apply app_inj_tail in E as [-> <-].
        rewrite Forall_app in Hpost. destruct Hpost as [Hp1 Hp2]. inversion Hp2; subst.
        rewrite N2 by (rewrite (frame_effective_iff t t1) by auto; auto).
        apply L1. exists pre, post. auto.
    + intros Hn. rewrite Forall_app in Hn. destruct Hn as [Hn1 Hn2]. inversion Hn2; subst.
      rewrite N2 by (rewrite (frame_effective_iff t t1) by auto; auto). auto.
Qed.

(* ---- reads ---- *)
Lemma read_found rnd t q i s : first_match (ids_of t) q i -> nth_error (mt_sectors t) i = Some s -> clean s ->
  exists r, mt_read_sector rnd t q DataOnly = Ok r /\ rs_not_found r = false /\ rs_id r = Some (ms_id s) /\
    read_data_of r = Ok (ms_data s) /\ rs_deleted r = ms_deleted s /\
    rs_address_crc_error r = ms_address_error s /\ rs_data_crc_error r = ms_data_error s.
Proof.
  intros FM Hs C. destruct (first_match_positions q _ i FM) as (l & E).
  cbn [mt_read_sector]. rewrite sm_idx_eq, E. unfold oindex. rewrite Hs. cbn [obind]. rewrite (clean_read rnd s C). cbn [obind].
  eexists. split; [reflexivity|]. cbn [rs_not_found rs_id rs_deleted rs_address_crc_error rs_data_crc_error]. repeat split.
  unfold read_data_of. cbn [rs_range rs_buf]. rewrite Nat.ltb_irrefl. cbn [Nat.ltb Nat.leb orb].
  unfold slice. rewrite Nat.sub_0_r. cbn [skipn]. rewrite firstn_all. reflexivity.
Qed.
Lemma read_absent rnd t q : absent (ids_of t) q ->
  exists r, mt_read_sector rnd t q DataOnly = Ok r /\ rs_not_found r = true /\ rs_id r = None /\ rs_buf r = [] /\
    (rs_wrong_cylinder r = true <-> other_cylinder (ids_of t) q) /\
    (rs_bad_cylinder r = true <-> cylinder_ff (ids_of t)) /\
    (rs_wrong_head r = true <-> other_head (ids_of t) q).
Proof.
  intros A. apply positions_nil in A. cbn [mt_read_sector]. rewrite sm_idx_eq, A. eexists. split; [reflexivity|].
  cbn [rs_not_found rs_id rs_buf rs_wrong_cylinder rs_bad_cylinder rs_wrong_head]. destruct (flags_spec t q) as (B & C & D). auto 10.
Qed.
Lemma scan_absent t q : absent (ids_of t) q ->
  exists r, mt_scan_sector t q = Ok r /\ sc_not_found r = true /\
    (sc_wrong_cylinder r = true <-> other_cylinder (ids_of t) q) /\
    (sc_bad_cylinder r = true <-> cylinder_ff (ids_of t)) /\
    (sc_wrong_head r = true <-> other_head (ids_of t) q).
Proof.
  intros A. apply positions_nil in A. unfold mt_scan_sector. rewrite sm_idx_eq, A. eexists. split; [reflexivity|].
  cbn [sc_not_found sc_wrong_cylinder sc_bad_cylinder sc_wrong_head]. destruct (flags_spec t q) as (B & C & D). auto 10.
Qed.
Lemma scan_found t q i s : first_match (ids_of t) q i -> nth_error (mt_sectors t) i = Some s ->
  exists r, mt_scan_sector t q = Ok r /\ sc_not_found r = false /\ sc_deleted r = ms_deleted s /\
    sc_address_error r = ms_address_error s /\ sc_data_error r = ms_data_error s.
Proof.
  intros FM Hs. destruct (first_match_positions q _ i FM) as (l & E).
  unfold mt_scan_sector. rewrite sm_idx_eq, E. unfold oindex. rewrite Hs. cbn [obind]. eexists. split; [reflexivity|]. auto.
Qed.
Lemma write_absent t q d del : absent (ids_of t) q ->
  exists r, mt_write_sector t q d del = Ok (t, 0%N, r) /\ wr_not_found r = false /\
    (wr_wrong_cylinder r = true <-> other_cylinder (ids_of t) q) /\
    (wr_bad_cylinder r = true <-> cylinder_ff (ids_of t)) /\
    (wr_wrong_head r = true <-> other_head (ids_of t) q).
Proof.
  intros A. apply positions_nil in A. unfold mt_write_sector. rewrite sm_idx_eq, A. eexists. split; [reflexivity|].
  cbn [wr_not_found wr_wrong_cylinder wr_bad_cylinder wr_wrong_head]. destruct (flags_spec t q) as (B & C & D). auto 10.
Qed.

(* ---- adding sectors ---- *)
Lemma find_index_none {A} (f : A -> bool) l : find_index f l = None <-> forall x, In x l -> f x = false.
Proof.
  induction l as [|a l IH]; cbn [find_index]; [split; auto; intros _ x []|].
  destruct (f a) eqn:E.
  - split; [discriminate|]. intros H. specialize (H a (or_introl eq_refl)). congruence.
  - destruct (find_index f l); cbn [option_map].
    + split; [discriminate|]. intros H. exfalso. assert (None = Some n \/ Some n = None) by (right; apply IH; intros; apply H; right; auto).
      destruct H0; discriminate.
    + split; auto. intros _ x [<-|Hx]; auto. apply IH; auto.
Qed.
Lemma find_index_some {A} (f : A -> bool) l i : find_index f l = Some i ->
  exists x, nth_error l i = Some x /\ f x = true /\ forall j y, j < i -> nth_error l j = Some y -> f y = false.
Proof.
  revert i; induction l as [|a l IH]; intros i; cbn [find_index]; [discriminate|].
  destruct (f a) eqn:E.
  - intros [= <-]. exists a. repeat split; auto. intros j y Hj. lia.
  - destruct (find_index f l) as [k|]; cbn [option_map]; [|discriminate]. intros [= <-].
    destruct (IH k eq_refl) as (x & H1 & H2 & H3). exists x. repeat split; auto.
    intros [|j] y Hj; cbn [nth_error]; [congruence|]. apply H3. lia.
Qed.
Lemma add_new t p : as_alternate p = false \/ ~ In (as_id p) (ids_of t) ->
  mt_add_sector t p = Ok (mkMST (mt_ch t) (mt_sectors t ++ [sector_of p])).
Proof.
  intros H. unfold mt_add_sector. destruct (as_alternate p); [|reflexivity].
  destruct H as [H|H]; [discriminate|].
  destruct (find_index _ (mt_sectors t)) as [i|] eqn:E; [|reflexivity].
  exfalso. apply find_index_some in E as (x & Hx & Hf & _). apply chsn_eqb_iff in Hf. apply H.
  unfold ids_of. rewrite <- Hf. apply in_map. eapply nth_error_In; eauto.
Qed.
Lemma add_alternate t p : as_alternate p = true -> In (as_id p) (ids_of t) ->
  (exists i s, nth_error (mt_sectors t) i = Some s /\ ms_id s = as_id p /\
    (forall j s', j < i -> nth_error (mt_sectors t) j = Some s' -> ms_id s' <> as_id p) /\
    (as_data p <> [] -> ms_data s <> [] -> mt_add_sector t p = Panic) /\
    (as_data p = [] \/ ms_data s = [] -> exists wm, mt_add_sector t p = Ok (mkMST (mt_ch t) (upd (mt_sectors t) i (mkMS (ms_id s) (ms_address_error s)
          (ms_data_error s) (ms_deleted s) (ms_no_dam s) (ms_data s) wm (ms_hole s)))) /\ mm_mask wm = mm_mask (ms_weak s))).
Proof.
  intros Ha Hin. unfold mt_add_sector. rewrite Ha.
  destruct (find_index _ (mt_sectors t)) as [i|] eqn:E.
  - apply find_index_some in E as (s & Hs & Hf & Hj). apply chsn_eqb_iff in Hf.
    exists i, s. split; auto. split; auto. split.
    { intros j s' Hlt Hs' Eq. specialize (Hj j s' Hlt Hs'). rewrite (proj2 (chsn_eqb_iff _ _) Eq) in Hj. discriminate. }
    unfold oindex. rewrite Hs. cbn [obind]. split.
    + intros H1 H2. destruct (as_data p); [congruence|]. destruct (ms_data s); [congruence|]. reflexivity.
    + intros H. assert (X : (match as_data p, ms_data s with _ :: _, _ :: _ => Panic | _, _ => Ok [] end) = @Ok (list N) []).
      { destruct H as [->| ->]; auto. destruct (as_data p); auto. }
      rewrite X. cbn [obind]. unfold or_slice. cbn [length]. rewrite combine_nil. cbn [map app skipn Nat.ltb Nat.leb obind].
      eexists. split; [reflexivity|]. reflexivity.
  - exfalso. apply in_map_iff in Hin as (s & Hs & Hin). apply (proj1 (find_index_none _ _)) with (x := s) in E; auto.
    rewrite (proj2 (chsn_eqb_iff _ _) Hs) in E. discriminate.
Qed.

(* ---- next id ---- *)
Definition at_chs (chs : DiskChs) (id : DiskChsn) : DiskChsn := mkChsn (mkChs (chs_c chs) (chs_h chs) (chsn_s id)) (chsn_n id).
Lemma next_id_loop_spec chs ids i id : NoDup (map chsn_s ids) -> nth_error ids i = Some id -> chsn_s id = chs_s chs ->
  next_id_loop chs false ids = (match nth_error ids (S i) with Some id' => (Some (at_chs chs id'), true) | None => (None, true) end).
Proof.
  revert i; induction ids as [|a ids IH]; intros i ND Hn Hs; [destruct i; discriminate|].
  cbn [map] in ND. inversion ND as [|? ? Hnin ND']; subst. destruct i as [|i]; cbn [nth_error] in Hn |- *.
  - injection Hn as ->. cbn [next_id_loop]. rewrite Hs, N.eqb_refl. destruct ids as [|b ids]; reflexivity.
  - cbn [next_id_loop]. destruct (N.eqb_spec (chsn_s a) (chs_s chs)) as [E|E].
    + exfalso. apply Hnin. rewrite E, <- Hs. apply in_map. eapply nth_error_In; eauto.
    + apply IH; auto.
Qed.
Lemma next_id_none chs ids : ~ In (chs_s chs) (map chsn_s ids) -> next_id_loop chs false ids = (None, false).
Proof.
  induction ids as [|a ids IH]; intros H; auto. cbn [next_id_loop]. destruct (N.eqb_spec (chsn_s a) (chs_s chs)) as [E|E].
  - exfalso; apply H; left; auto.
  - apply IH. intros Hin; apply H; right; auto.
Qed.
Lemma next_id_spec t chs i id : NoDup (map chsn_s (ids_of t)) -> nth_error (ids_of t) i = Some id ->
  chsn_s id = chs_s chs ->
  exists id', nth_error (ids_of t) (S i mod length (ids_of t)) = Some id' /\ mt_next_id t chs = Some (at_chs chs id').
Proof.
  intros ND Hn Hs. unfold mt_next_id. destruct (mt_sectors t) as [|first rest] eqn:Et.
  - unfold ids_of in Hn. rewrite Et in Hn. destruct i; discriminate.
  - rewrite <- Et. fold (ids_of t). rewrite (next_id_loop_spec chs (ids_of t) i id ND Hn Hs).
    assert (Hi : i < length (ids_of t)) by (apply nth_error_Some; congruence).
    destruct (nth_error (ids_of t) (S i)) as [id'|] eqn:E.
    + exists id'. rewrite Nat.mod_small by (apply nth_error_Some; congruence). auto.
    + apply nth_error_None in E. replace (S i) with (length (ids_of t)) by lia. rewrite Nat.mod_same by lia.
      exists (ms_id first). unfold ids_of. rewrite Et. auto.
Qed.

(* ---- read_all, analysis ---- *)
Lemma existsb_orb_fold {A} (f : A -> bool) a l : a || existsb f l = existsb (fun o => match o with None => a | Some x => f x end) (None :: map Some l).
Proof. cbn [existsb]. f_equal. induction l as [|x l IH]; cbn [map existsb]; auto. rewrite IH; auto. Qed.

Fixpoint numbered (si : N) (ids : list DiskChsn) : bool :=
  match ids with [] => true | id :: t => (chsn_s id =? si + 1)%N && numbered (si + 1) t end.
Lemma analysis_loop_spec l : forall si a, (si + N.of_nat (length l) <= 255)%N ->
  analysis_loop si l a = Ok (mkAnalysis (ta_data_error a || existsb ms_data_error l) (ta_address_error a || existsb ms_address_error l)
    (ta_deleted a || existsb ms_deleted l) (ta_no_dam a) (ta_consistent_size a)
    (ta_nonconsecutive a || negb (numbered si (map ms_id l))) (ta_overlapping a) (ta_crossing_index a) (ta_sector_ct a)).
Proof.
  induction l as [|s l IH]; intros si a Hl.
  - cbn [analysis_loop existsb map numbered negb]. rewrite !orb_false_r. destruct a; reflexivity.
  - cbn [analysis_loop length] in *. rewrite Nat2N.inj_succ in Hl.
    assert (E : as_u8 si = si) by (unfold as_u8; apply N.mod_small; lia). rewrite E.
    destruct (N.eqb_spec si 255) as [H|_]; [lia|]. rewrite IH by lia. cbn [ta_data_error ta_address_error ta_deleted ta_no_dam ta_consistent_size ta_nonconsecutive ta_overlapping ta_crossing_index ta_sector_ct existsb map numbered].
    rewrite <- !orb_assoc, negb_andb. reflexivity.
Qed.
Lemma numbered_spec ids : forall si, numbered si ids = true <->
  forall i id, nth_error ids i = Some id -> chsn_s id = (si + N.of_nat i + 1)%N.
Proof.
  induction ids as [|a ids IH]; intros si; cbn [numbered].
  - split; auto. intros _ i id H. destruct i; discriminate.
  - rewrite andb_true_iff, N.eqb_eq, IH. split.
    + intros [H1 H2] [|i] id; cbn [nth_error]; [intros [= <-]; rewrite H1; lia|]. intros H. rewrite (H2 i id H). lia.
    + intros H. split; [rewrite (H 0 a eq_refl); lia|]. intros i id Hi. rewrite (H (S i) id Hi). lia.
Qed.
Lemma analysis_loop_panics l : forall si a, (si <= 255)%N -> (255 < si + N.of_nat (length l))%N -> analysis_loop si l a = Panic.
Proof.
  induction l as [|s l IH]; intros si a H1 H2; cbn [length] in H2; [lia|].
  cbn [analysis_loop]. assert (E : as_u8 si = si) by (unfold as_u8; apply N.mod_small; lia). rewrite E.
  destruct (N.eqb_spec si 255); auto. apply IH; lia.
Qed.

Lemma read_all_loop_spec rnd tl l : forall k r, Forall clean l ->
  exists r', read_all_loop rnd k tl l r = Ok r' /\
    (let l' := firstn (N.to_nat (tl - rt_sectors_read r)) l in
    rt_buf r' = rt_buf r ++ concat (map ms_data l') /\
    rt_sectors_read r' = (rt_sectors_read r + N.of_nat (length l'))%N /\
    rt_deleted r' = rt_deleted r || existsb ms_deleted l' /\
    rt_address_crc_error r' = rt_address_crc_error r || existsb ms_address_error l' /\
    rt_data_crc_error r' = rt_data_crc_error r || existsb ms_data_error l' /\
    rt_not_found r' = (match l with [] => rt_not_found r | _ => false end)).
Proof.
  induction l as [|s l IH]; intros k r HF.
  - rewrite firstn_nil. cbn zeta. cbn [read_all_loop concat map length existsb]. exists r. rewrite app_nil_r, !orb_false_r. repeat split; lia.
  - inversion HF as [|? ? Hc HF']; subst. cbn [read_all_loop].
    destruct (N.leb_spec tl (rt_sectors_read r)) as [H|H].
    + replace (tl - rt_sectors_read r)%N with 0%N by lia. cbn zeta. cbn [N.to_nat firstn concat map length existsb].
      eexists. split; [reflexivity|]. cbn [rt_buf rt_sectors_read rt_deleted rt_address_crc_error rt_data_crc_error rt_not_found].
      rewrite app_nil_r, !orb_false_r. repeat split; lia.
    + rewrite (clean_read _ _ Hc). cbn [obind].
      assert (EQ : N.to_nat (tl - rt_sectors_read r) = S (N.to_nat (tl - (rt_sectors_read r + 1)))) by (clear - H; lia).
      assert (EQ2 : forall x m, (x + 1 + N.of_nat m = x + N.of_nat (S m))%N) by (clear; intros; lia).
      match goal with |- context [read_all_loop rnd (S k) tl l ?r1] => destruct (IH (S k) r1 HF') as (r' & E & B & C & D & F & G & H') end.
      exists r'. rewrite E. split; [reflexivity|]. cbn zeta.
      cbn [rt_buf rt_sectors_read rt_deleted rt_address_crc_error rt_data_crc_error rt_not_found] in *.
      rewrite EQ. cbn [firstn existsb map concat length].
      rewrite B, C, D, F, G, H', <- !orb_assoc, <- app_assoc, EQ2. repeat split; auto. destruct l; reflexivity.
Qed.
