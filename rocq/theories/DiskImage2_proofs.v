(* DiskImage2_proofs.v - resolution lock, analysis, normalisation, choice of the best revolution. *)
From Verif Require Import Base Base_lemmas Chs_model Types_model Mfm_model System34_model MetaSector_model BitStream_model DiskImage_model DiskImage_spec DiskImage_proofs.

(* ---- resolution lock ---- *)
Definition lock_inv (d : DiskImage) : Prop :=
  di_multires d = false /\
  ((di_res d = [] /\ di_pool d = []) \/ exists r, di_res d = [r] /\ forall t, In t (di_pool d) -> tk_res t = r).
Lemma res_eqb_eq : forall a b, res_eqb a b = true <-> a = b.
Proof. intros [] []; cbn; split; intro H; try reflexivity; try discriminate. Qed.
Lemma res_accept : forall d r, lock_inv d -> res_rejects d r = false ->
  di_multires d = false /\ res_insert r (di_res d) = [r] /\ forall t, In t (di_pool d) -> tk_res t = r.
Proof.
  intros d r [Hm H] Hr. split; [exact Hm|]. unfold res_rejects in Hr. rewrite Hm in Hr. cbn in Hr.
  destruct H as [[E P]|(r0 & E & P)]; rewrite E in *; cbn in Hr.
  - rewrite P. split; [reflexivity|intros t []].
  - unfold res_insert, res_mem in *. cbn [existsb] in *. rewrite orb_false_r in *.
    destruct (res_eqb r r0) eqn:Eq; [|discriminate]. apply res_eqb_eq in Eq. subst. auto.
Qed.
Lemma upd_In : forall {A} (l : list A) i x y, In y (upd l i x) -> y = x \/ In y l.
Proof.
  induction l as [|a l IH]; intros i x y H; [right; exact H|]. destruct i; cbn in H.
  - destruct H; [left; auto|right; right; auto].
  - destruct H as [->|H]; [right; left; reflexivity|]. destruct (IH _ _ _ H); [left; auto|right; right; auto].
Qed.
Lemma push_lock : forall d r h t, di_multires d = false -> (forall u, In u (di_pool d) -> tk_res u = r) -> di_res d = [r] -> tk_res t = r ->
  lock_inv (push_track d h t).
Proof.
  intros d r h t Hm Hp Hr Ht. split; [exact Hm|]. right. exists r. split; [exact Hr|]. cbn. intros u Hu.
  apply in_app_or in Hu. destruct Hu as [Hu|[<-|[]]]; auto.
Qed.
Lemma same_lock : forall d d', di_multires d' = di_multires d -> di_res d' = di_res d ->
  (length (di_pool d') = length (di_pool d)) ->
  (forall i t', nth_error (di_pool d') i = Some t' -> exists t, nth_error (di_pool d) i = Some t /\ tk_res t' = tk_res t) ->
  lock_inv d -> lock_inv d'.
Proof.
  intros d d' Hm Hr Hl Hp [M H]. split; [congruence|]. rewrite Hr.
  destruct H as [[E P]|(r & E & P)]; [left|right].
  - split; [exact E|]. rewrite P in Hl. destruct (di_pool d'); [reflexivity|discriminate].
  - exists r. split; [exact E|]. intros t' Ht. apply In_nth_error in Ht as (i & Hi).
    destruct (Hp _ _ Hi) as (t & Hn & ->). apply P. eapply nth_error_In; eauto.
Qed.
Lemma upd_lock : forall d ti t t', nth_error (di_pool d) ti = Some t -> tk_res t' = tk_res t -> lock_inv d ->
  lock_inv (with_pool d (upd (di_pool d) ti t')).
Proof.
  intros d ti t t' Hn Hr H. eapply same_lock; [..|exact H]; try reflexivity.
  - apply upd_length.
  - intros i u Hu. cbn in Hu. destruct (Nat.eq_dec ti i) as [->|Hne].
    + rewrite nth_error_upd_same in Hu by (apply nth_error_Some; congruence). inversion Hu; subst. eauto.
    + rewrite nth_error_upd_other in Hu by auto. eauto.
Qed.
Lemma set_ch_res : forall t ch, tk_res (tk_set_ch t ch) = tk_res t.
Proof. intros [] ch; reflexivity. Qed.
Lemma remap_res : forall m pool c p c',
  ofold (fun '(pool, c) ti =>
      let! t := oindex pool ti in
      let ch := tk_ch t in
      let pool := if (ch_c ch =? c)%N then pool else upd pool ti (tk_set_ch t (mkCh c (ch_h ch))) in
      if (c =? 65535)%N then Panic else Ok (pool, (c + 1)%N)) m (pool, c) = Ok (p, c') ->
  length p = length pool /\ forall i t', nth_error p i = Some t' -> exists t, nth_error pool i = Some t /\ tk_res t' = tk_res t.
Proof.
  induction m as [|x m IH]; intros pool c p c' H; cbn [ofold] in H.
  - inversion H; subst. split; [reflexivity|eauto].
  - unfold oindex at 1 in H. destruct (nth_error pool x) as [y|] eqn:Ex; cbn [obind] in H; [|discriminate].
    destruct (c =? 65535)%N; [discriminate|]. cbn [obind] in H.
    destruct (IH _ _ _ _ H) as [L R]. split.
    + rewrite L. destruct (ch_c (tk_ch y) =? c)%N; [reflexivity|apply upd_length].
    + intros i t' Hi. destruct (R _ _ Hi) as (t & Ht & Er). destruct (ch_c (tk_ch y) =? c)%N; [eauto|].
      destruct (Nat.eq_dec x i) as [->|Hne].
      * rewrite nth_error_upd_same in Ht by (apply nth_error_Some; congruence). inversion Ht; subst.
        exists y. split; [exact Ex|]. rewrite Er. apply set_ch_res.
      * rewrite nth_error_upd_other in Ht by auto. eauto.
Qed.
Lemma write_res : forall t q off data sc del dbg t' w, tk_write_sector t q off data sc del dbg = Ok (t', w) -> tk_res t' = tk_res t.
Proof.
  intros [t|t|f] q off data sc del dbg t' w H; cbn [tk_write_sector] in H.
  - destruct (mt_write_sector t q data del) as [[[u v] x]|e|]; cbn [obind] in H; inversion H; reflexivity.
  - destruct (bt_write_sector _ _ _ _ _ _ _) as [[u v]|e|]; cbn [obind] in H; inversion H; reflexivity.
  - unfold on_flux in H. destruct (ft_bitstream f) as [[b|]|e|]; cbn [obind] in H; try discriminate.
    destruct (bt_write_sector _ _ _ _ _ _ _) as [[u v]|e|]; cbn [obind] in H; inversion H; reflexivity.
Qed.
Lemma format_res : forall rnd t std ids pat g t', tk_format rnd t std ids pat g = Ok t' -> tk_res t' = tk_res t.
Proof.
  intros rnd [t|t|f] std ids pat g t' H; cbn [tk_format] in H; [discriminate| |].
  - destruct (bt_format _ _ _ _ _ _); cbn [obind] in H; inversion H; reflexivity.
  - unfold on_flux in H. destruct (ft_bitstream f) as [[b|]|e|]; cbn [obind] in H; try discriminate.
    destruct (bt_format _ _ _ _ _ _); cbn [obind] in H; inversion H; reflexivity.
Qed.
Lemma seek_pool : forall d ch ti t, seek_track d ch = Ok (ti, t) -> nth_error (di_pool d) ti = Some t.
Proof.
  intros d ch ti t H. unfold seek_track in H. destruct (1 <? ch_h ch)%N; [discriminate|].
  destruct (head_map d (ch_h ch)) as [m|e|]; cbn [obind] in H; try discriminate.
  destruct (length m <=? N.to_nat (ch_c ch)); [discriminate|]. unfold oindex in H.
  destruct (nth_error m (N.to_nat (ch_c ch))) as [x|]; cbn [obind] in H; [|discriminate].
  destruct (nth_error (di_pool d) x) eqn:E; cbn [obind] in H; inversion H; subst. exact E.
Qed.

Lemma call_lock : forall rnd op d d' ok, locked_op op = true -> lock_inv d -> call rnd op d = Some (d', ok) -> lock_inv d'.
Proof.
  intros rnd op d d' ok Hop Hl H. destruct op; cbn [call] in H; try discriminate Hop.
  - unfold report, add_track_metasector in H. destruct (2 <=? ch_h ch)%N; [inversion H; subst; auto|].
    destruct (res_rejects d RMetaSector) eqn:Er; inversion H; subst; [auto|].
    destruct (res_accept _ _ Hl Er) as (M & R & P). eapply push_lock; eauto.
  - unfold report, add_track_bitstream in H. destruct (2 <=? ch_h ch)%N; [inversion H; subst; auto|].
    destruct (res_rejects d RBitStream) eqn:Er; [inversion H; subst; auto|].
    destruct (res_accept _ _ Hl Er) as (M & R & P).
    destruct (bt_new _ _ _ _ _ _) as [t|e|] eqn:Et; inversion H; subst; [eapply push_lock; eauto|].
    split; [exact M|]. right. exists RBitStream. split; [exact R|exact P].
  - unfold report, add_track_fluxstream in H. destruct (2 <=? ch_h ch)%N; [inversion H; subst; auto|].
    destruct (res_rejects d RFluxStream) eqn:Er; [inversion H; subst; auto|].
    destruct (res_accept _ _ Hl Er) as (M & R & P).
    destruct decoded as [bs|e|]; inversion H; subst; [eapply push_lock; eauto|].
    split; [exact M|]. right. exists RFluxStream. split; [exact R|exact P].
  - unfold report, add_empty_track in H. destruct (2 <=? ch_h ch)%N; [inversion H; subst; auto|].
    destruct (match res with Some r => res_rejects d r | None => false end) eqn:Er; [inversion H; subst; auto|].
    remember (match res with Some r => with_res d (res_insert r (di_res d)) | None => d end) as d1 eqn:Ed1.
    assert (Hl1 : lock_inv d1).
    { subst d1. destruct res as [r|]; [|exact Hl]. destruct (res_accept _ _ Hl Er) as (M & R & P).
      split; [exact M|]. right. exists r. split; [exact R|exact P]. }
    clear Ed1 Hl Er.
    destruct Hl1 as [M [[E P]|(r & E & P)]].
    { rewrite E in H. inversion H; subst. split; auto. }
    assert (Hl1 : lock_inv d1) by (split; [exact M|right; eauto]).
    rewrite E in H. destruct (head_map d1 (ch_h ch)) as [m|e|]; [|inversion H; subst; exact Hl1|discriminate].
    destruct r; cbn [res_min res_mem existsb res_eqb res_num Nat.eqb orb] in H.
    + destruct (negb _); inversion H; subst; [exact Hl1|]. eapply push_lock; eauto.
    + destruct (negb _); [inversion H; subst; exact Hl1|].
      destruct (mfm_new _ _ _); inversion H; subst; [eapply push_lock; eauto|exact Hl1].
    + inversion H; subst. exact Hl1.
  - destruct (seek_track d ch) as [[ti t0]|e|] eqn:E; try discriminate; [|inversion H; subst; auto].
    destruct (res_eqb (tk_res t) (tk_res t0)) eqn:Er; inversion H; subst; [|auto].
    apply res_eqb_eq in Er. eapply upd_lock; eauto. eapply seek_pool; eauto.
  - unfold report1, di_write_sector in H. destruct (seek_track d ch) as [[ti t0]|e|] eqn:E; unfold omap in H; cbn [obind] in H; try discriminate; [|inversion H; subst; auto].
    destruct (tk_write_sector _ _ _ _ _ _ _) as [[t' w]|e|] eqn:Ew; cbn [obind fst] in H; inversion H; subst; [|auto].
    eapply upd_lock; [eapply seek_pool; eauto|eapply write_res; eauto|exact Hl].
  - unfold report1, di_format_track in H. destruct (seek_track d ch) as [[ti t0]|e|] eqn:E; cbn [obind] in H; try discriminate; [|inversion H; subst; auto].
    destruct (tk_format _ _ _ _ _ _) as [t'|e|] eqn:Ew; cbn [obind] in H; try discriminate; [|inversion H; subst; auto].
    destruct (di_analyze _) as [d2|e|] eqn:Ea in H; inversion H; subst; [|auto].
    destruct (analyze_same _ _ Ea) as (P & M0 & M1 & R & M).
    assert (Hl2 : lock_inv (with_pool d (upd (di_pool d) ti t'))) by (eapply upd_lock; [eapply seek_pool; eauto|eapply format_res; eauto|exact Hl]).
    eapply same_lock; [exact M|exact R|rewrite P; reflexivity| |exact Hl2]. intros i u Hu. rewrite P in Hu. eauto.
  - unfold report1, remove_empty_tracks in H. destruct (empty_positions _ _) as [e0|e|] in H; cbn [obind] in H; try discriminate; [|inversion H; subst; auto].
    destruct (empty_positions _ _) as [e1|e|] in H; cbn [obind] in H; inversion H; subst; [|auto].
    eapply same_lock; [..|exact Hl]; try reflexivity. intros i u Hu. cbn in Hu. eauto.
  - inversion H; subst. eapply same_lock; [..|exact Hl]; try reflexivity. intros i u Hu. cbn in Hu. eauto.
  - unfold report1, remap_tracks, remap_head in H.
    destruct (ofold _ (di_map0 d) _) as [[p c]|e|] eqn:E0 in H; cbn [obind] in H; try discriminate; [|inversion H; subst; auto].
    destruct (ofold _ (di_map1 d) _) as [[p' c']|e|] eqn:E1 in H; cbn [obind] in H; inversion H; subst; [|auto].
    destruct (remap_res _ _ _ _ _ E0) as [L0 R0]. destruct (remap_res _ _ _ _ _ E1) as [L1 R1].
    eapply same_lock; [..|exact Hl]; try reflexivity; cbn.
    + congruence.
    + intros i u Hu. destruct (R1 _ _ Hu) as (v & Hv & Ev). destruct (R0 _ _ Hv) as (w & Hw & Ew). exists w. split; congruence.
  - inversion H; subst. split; [reflexivity|]. cbn. destruct Hl as [_ [[E P]|(r & E & P)]]; [left|right]; [auto|exists r]. split; [exact E|intros t []].
  - unfold report1 in H. destruct (di_analyze d) as [d2|e|] eqn:Ea; inversion H; subst; [|auto].
    destruct (analyze_same _ _ Ea) as (P & M0 & M1 & R & M).
    eapply same_lock; [exact M|exact R|rewrite P; reflexivity| |exact Hl]. intros i u Hu. rewrite P in Hu. eauto.
  - cbn in Hop. destruct b; [discriminate|]. inversion H; subst. destruct Hl as [M HH]. split; [reflexivity|exact HH].
Qed.
Lemma calls_lock : forall rnd ops d d' oks, forallb locked_op ops = true -> lock_inv d -> calls rnd ops d = Some (d', oks) -> lock_inv d'.
Proof.
  induction ops as [|op ops IH]; intros d d' oks Ho Hl H; cbn [calls] in H; [inversion H; subst; exact Hl|].
  cbn in Ho. apply andb_true_iff in Ho as [Ho Ho'].
  destruct (call rnd op d) as [[d1 ok]|] eqn:E; [|discriminate].
  destruct (calls rnd ops d1) as [[d2 oks']|] eqn:E'; [|discriminate]. inversion H; subst.
  eapply IH; [exact Ho'| |exact E']. eapply call_lock; eauto.
Qed.
Lemma lock_uniform : forall d, lock_inv d -> uniform d.
Proof.
  intros d [_ [[_ P]|(r & _ & P)]] t1 t2 H1 H2; [rewrite P in H1; destruct H1|]. rewrite (P _ H1), (P _ H2). reflexivity.
Qed.
Lemma lock_rejects : forall d t r, lock_inv d -> In t (di_pool d) -> r <> tk_res t -> res_rejects d r = true.
Proof.
  intros d t r [M [[_ P]|(r0 & E & P)]] Ht Hr; [rewrite P in Ht; destruct Ht|].
  unfold res_rejects. rewrite M, E. cbn. rewrite orb_false_r. apply negb_true_iff.
  destruct (res_eqb r r0) eqn:Eq; [|reflexivity]. apply res_eqb_eq in Eq. rewrite (P _ Ht) in Hr. congruence.
Qed.
Lemma lock_accepts : forall d t, lock_inv d -> In t (di_pool d) -> res_rejects d (tk_res t) = false.
Proof.
  intros d t [M [[_ P]|(r0 & E & P)]] Ht; [rewrite P in Ht; destruct Ht|].
  unfold res_rejects. rewrite M, E, (P _ Ht). cbn. rewrite orb_false_r. apply negb_false_iff. apply res_eqb_eq. reflexivity.
Qed.

(* ---- analysis ---- *)
Lemma iter_in : forall d ti, In ti (track_idx_iter d) <-> In ti (di_map0 d ++ di_map1 d).
Proof.
  intros d ti. unfold track_idx_iter. rewrite in_flat_map, in_app_iff. split.
  - intros (i & Hi & H). apply in_app_or in H. destruct H as [H|H].
    + destruct (nth_error (di_map0 d) i) eqn:E; cbn in H; [|destruct H]. destruct H as [->|[]]. left. eapply nth_error_In; eauto.
    + destruct (nth_error (di_map1 d) i) eqn:E; cbn in H; [|destruct H]. destruct H as [->|[]]. right. eapply nth_error_In; eauto.
  - intros [H|H]; apply In_nth_error in H as (i & Hi); exists i.
    + assert (i < length (di_map0 d)) by (apply nth_error_Some; congruence).
      split; [apply in_seq; lia|]. apply in_or_app. left. rewrite Hi. left; reflexivity.
    + assert (i < length (di_map1 d)) by (apply nth_error_Some; congruence).
      split; [apply in_seq; lia|]. apply in_or_app. right. rewrite Hi. left; reflexivity.
Qed.
(* the analyses of the tracks that have one *)
Definition analysed (pool : list DTrack) (tis : list nat) (ta : TrackAnalysis) : Prop :=
  exists ti t, In ti tis /\ nth_error pool ti = Some t /\ tk_analysis t = Ok ta.
Definition some_ta (S : TrackAnalysis -> Prop) (f : TrackAnalysis -> bool) : Prop := exists ta, S ta /\ 0 < ta_sector_ct ta /\ f ta = true.

Lemma set_insert_in : forall {A} (eqb : A -> A -> bool) (Heq : forall a b, eqb a b = true <-> a = b) x s y,
  In y (set_insert eqb x s) <-> y = x \/ In y s.
Proof.
  intros A eqb Heq x s y. unfold set_insert. destruct (existsb (eqb x) s) eqn:E.
  - apply existsb_exists in E as (z & Hz & Ez). apply Heq in Ez. subst. split; [auto|intros [->|H]; auto].
  - rewrite in_app_iff. cbn. intuition.
Qed.
Lemma set_insert_nodup : forall {A} (eqb : A -> A -> bool) (Heq : forall a b, eqb a b = true <-> a = b) x s,
  NoDup s -> NoDup (set_insert eqb x s).
Proof.
  intros A eqb Heq x s H. unfold set_insert. destruct (existsb (eqb x) s) eqn:E; [exact H|].
  apply NoDup_app_intro; [exact H|repeat constructor; auto|]. intros y Hy [<-|[]].
  assert (existsb (eqb x) s = true) by (apply existsb_exists; exists x; split; [exact Hy|apply Heq; reflexivity]). congruence.
Qed.
Definition acc_inv (S : TrackAnalysis -> Prop) (a : Acc) : Prop :=
  (ac_data a = true <-> some_ta S ta_data_error) /\ (ac_addr a = true <-> some_ta S ta_address_error) /\
  (ac_del a = true <-> some_ta S ta_deleted) /\ (ac_nodam a = true <-> some_ta S ta_no_dam) /\
  (ac_variable a = true <-> exists ta, S ta /\ ta_consistent_size ta = None) /\
  (forall n, In n (ac_spt a) <-> 0 < n /\ exists ta, S ta /\ ta_sector_ct ta = n) /\ NoDup (ac_spt a) /\
  (In (ac_ct a) (ac_spt a) \/ ac_ct a = 0 /\ ac_spt a = []) /\
  ((ac_last a <> 0%N -> exists ta, S ta /\ ta_consistent_size ta = Some (ac_last a)) /\
   (ac_last a = 0%N -> forall ta n, S ta -> ta_consistent_size ta = Some n -> n = 0%N)).
Lemma acc_inv_ext : forall S S' a, (forall ta, S ta <-> S' ta) -> acc_inv S a -> acc_inv S' a.
Proof.
  intros S S' a H (A & B & C & D & E & F & G & I & J & K).
  assert (Q : forall f, some_ta S f <-> some_ta S' f).
  { intros f. split; intros (ta & X & Y & Z); exists ta; (split; [apply H; exact X|auto]). }
  unfold acc_inv. rewrite <- !Q.
  split; [exact A|split; [exact B|split; [exact C|split; [exact D|split; [|split; [|split; [exact G|split; [exact I|split]]]]]]]].
  - rewrite E. split; intros (ta & X & Y); exists ta; (split; [apply H; exact X|auto]).
  - intros n. rewrite F. split; intros (P & ta & X & Y); (split; [exact P|]); exists ta; (split; [apply H; exact X|auto]).
  - intros X. destruct (J X) as (ta & Y & Z). exists ta. split; [apply H; exact Y|exact Z].
  - intros X ta n Y Z. eapply K; eauto. apply H. exact Y.
Qed.
Lemma acc_step_inv : forall pool a ti a' S, acc_inv S a -> acc_step pool a ti = Ok a' ->
  acc_inv (fun ta => S ta \/ analysed pool [ti] ta) a'.
Proof.
  intros pool a ti a' S H E. unfold acc_step, oindex in E.
  destruct (nth_error pool ti) as [t|] eqn:En; cbn [obind] in E; [|discriminate].
  destruct (tk_analysis t) as [ta|e|] eqn:Et; [| |discriminate].
  2:{ inversion E; subst. eapply acc_inv_ext; [|exact H]. intros ta. split; [auto|].
      intros [X|(ti' & t' & [<-|[]] & X & Y)]; [exact X|]. rewrite En in X. inversion X; subst. congruence. }
  assert (HS : forall x, (S x \/ analysed pool [ti] x) <-> (S x \/ x = ta)).
  { intros x. split; intros [X|X]; auto.
    - destruct X as (ti' & t' & [<-|[]] & X & Y). rewrite En in X. inversion X; subst. rewrite Et in Y. inversion Y. auto.
    - subst x. right. exists ti, t. cbn; auto. }
  eapply acc_inv_ext; [intros x; symmetry; apply HS|]. clear HS En Et ti t pool.
  destruct H as (A & B & C & D & V & F & G & I & J & K).
  assert (Q : forall f b, (b = true <-> some_ta S f) -> 0 < ta_sector_ct ta -> (b || f ta = true <-> some_ta (fun x => S x \/ x = ta) f)).
  { intros f b Hb Hp. rewrite orb_true_iff, Hb. split.
    - intros [(x & X & Y & Z)|X]; [exists x|exists ta]; auto.
    - intros (x & [X| ->] & Y & Z); [left; exists x|]; auto. }
  assert (Q0 : forall f b, (b = true <-> some_ta S f) -> ta_sector_ct ta = 0 -> (b = true <-> some_ta (fun x => S x \/ x = ta) f)).
  { intros f b Hb Hp. rewrite Hb. split.
    - intros (x & X & Y & Z). exists x; auto.
    - intros (x & [X| ->] & Y & Z); [exists x; auto|]. rewrite Hp in Y. inversion Y. }
  set (a1 := match ta_consistent_size ta with
     | None => mkAcc (ac_spt a) (ac_ct a) (ac_data a) (ac_addr a) (ac_del a) (ac_nodam a) true (ac_sizes a) (ac_last a)
     | Some s => if (0 <? s)%N then mkAcc (ac_spt a) (ac_ct a) (ac_data a) (ac_addr a) (ac_del a) (ac_nodam a) (ac_variable a) (set_insert N.eqb s (ac_sizes a)) s else a end) in *.
  assert (P : ac_spt a1 = ac_spt a /\ ac_ct a1 = ac_ct a /\ ac_data a1 = ac_data a /\ ac_addr a1 = ac_addr a /\ ac_del a1 = ac_del a /\ ac_nodam a1 = ac_nodam a).
  { unfold a1. destruct (ta_consistent_size ta) as [s|]; [destruct (0 <? s)%N|]; cbn; auto 10. }
  destruct P as (P1 & P2 & P3 & P4 & P5 & P6).
  assert (V1 : ac_variable a1 = true <-> exists x, (S x \/ x = ta) /\ ta_consistent_size x = None).
  { unfold a1. destruct (ta_consistent_size ta) as [s|] eqn:Es.
    - assert (W : ac_variable (if (0 <? s)%N then mkAcc (ac_spt a) (ac_ct a) (ac_data a) (ac_addr a) (ac_del a) (ac_nodam a) (ac_variable a) (set_insert N.eqb s (ac_sizes a)) s else a) = ac_variable a) by (destruct (0 <? s)%N; reflexivity).
      rewrite W, V. split; [intros (x & X & Y); exists x; auto|intros (x & [X| ->] & Y); [exists x; auto|congruence]].
    - cbn. split; [intros _; exists ta; auto|auto]. }
  assert (L1 : (ac_last a1 <> 0%N -> exists x, (S x \/ x = ta) /\ ta_consistent_size x = Some (ac_last a1)) /\
               (ac_last a1 = 0%N -> forall x n, (S x \/ x = ta) -> ta_consistent_size x = Some n -> n = 0%N)).
  { unfold a1. destruct (ta_consistent_size ta) as [s|] eqn:Es.
    - destruct (0 <? s)%N eqn:E0; cbn [ac_last].
      + apply N.ltb_lt in E0. split; [intros _; exists ta; auto|clear - E0; lia].
      + apply N.ltb_ge in E0. split; [intros X; destruct (J X) as (x & Y & Z); exists x; auto|].
        intros X x n [Y| ->] Z; [eapply K; eauto|]. rewrite Es in Z. inversion Z. clear - E0 H0. lia.
    - cbn [ac_last]. split; [intros X; destruct (J X) as (x & Y & Z); exists x; auto|].
      intros X x n [Y| ->] Z; [eapply K; eauto|]. congruence. }
  assert (E' : a' = if 0 <? ta_sector_ct ta
          then mkAcc (set_insert Nat.eqb (ta_sector_ct ta) (ac_spt a1)) (ta_sector_ct ta)
                     (ac_data a1 || ta_data_error ta) (ac_addr a1 || ta_address_error ta)
                     (ac_del a1 || ta_deleted ta) (ac_nodam a1 || ta_no_dam ta)
                     (ac_variable a1) (ac_sizes a1) (ac_last a1) else a1) by (inversion E; reflexivity).
  clearbody a1. clear E. subst a'.
  destruct (0 <? ta_sector_ct ta) eqn:Ep.
  - apply Nat.ltb_lt in Ep. unfold acc_inv; cbn. rewrite P1, P3, P4, P5, P6.
    split; [apply Q; auto|split; [apply Q; auto|split; [apply Q; auto|split; [apply Q; auto|split; [exact V1|split; [|split; [|split; [|exact L1]]]]]]]].
    + intros n. rewrite (set_insert_in Nat.eqb Nat.eqb_eq), F. split.
      * intros [-> |(X & x & Y & Z)]; [split; [exact Ep|exists ta; auto]|split; [exact X|exists x; auto]].
      * intros (X & x & [Y| ->] & Z); [right; split; [exact X|exists x; auto]|left; auto].
    + apply (set_insert_nodup Nat.eqb Nat.eqb_eq), G.
    + left. rewrite (set_insert_in Nat.eqb Nat.eqb_eq). auto.
  - apply Nat.ltb_ge in Ep. assert (Z0 : ta_sector_ct ta = 0) by (clear - Ep; lia).
    unfold acc_inv. rewrite P1, P2, P3, P4, P5, P6.
    split; [apply Q0; auto|split; [apply Q0; auto|split; [apply Q0; auto|split; [apply Q0; auto|split; [exact V1|split; [|split; [exact G|split; [exact I|exact L1]]]]]]]].
    intros n. rewrite F. split; intros (X & x & Y & Z); (split; [exact X|]); exists x; [auto|].
    destruct Y as [Y| ->]; [auto|]. clear - X Z Z0. lia.
Qed.
Lemma acc_fold_inv : forall pool tis a a' S, acc_inv S a -> ofold (acc_step pool) tis a = Ok a' ->
  acc_inv (fun ta => S ta \/ analysed pool tis ta) a'.
Proof.
  intros pool. induction tis as [|ti tis IH]; intros a a' S H E; cbn [ofold] in E.
  - inversion E; subst. eapply acc_inv_ext; [|exact H]. intros ta. split; [auto|]. intros [X|(? & ? & [] & _)]. exact X.
  - destruct (acc_step pool a ti) as [a1|e|] eqn:E1; cbn [obind] in E; try discriminate.
    pose proof (IH _ _ _ (acc_step_inv _ _ _ _ _ H E1) E) as G. eapply acc_inv_ext; [|exact G].
    intros ta. split.
    + intros [[X|(x & t & [<-|[]] & Y)]|(x & t & X & Y)]; [auto|right; exists ti, t; cbn; auto|right; exists x, t; cbn; auto].
    + intros [X|(x & t & [<-|X] & Y)]; [auto|left; right; exists ti, t; cbn; auto|right; exists x, t; auto].
Qed.
Lemma acc_init_inv : acc_inv (fun _ => False) (mkAcc [] 0 false false false false false [] 0%N).
Proof.
  assert (Q : forall f, false = true <-> some_ta (fun _ => False) f) by (intros f; split; [discriminate|intros (x & [] & _)]).
  unfold acc_inv; cbn.
  split; [apply Q|split; [apply Q|split; [apply Q|split; [apply Q|split; [|split; [|split; [constructor|split; [right; auto|split]]]]]]]].
  - split; [discriminate|intros (x & [] & _)].
  - intros n. split; [intros []|intros (_ & x & [] & _)].
  - congruence.
  - intros _ x n [].
Qed.
Lemma nodup_two : forall {A} (l : list A), NoDup l -> 1 < length l -> exists a b, In a l /\ In b l /\ a <> b.
Proof.
  intros A [|a [|b l]] H Hl; cbn in Hl; try lia. exists a, b. inversion H; subst. cbn. repeat split; auto.
  intro; subst. apply H2. left; reflexivity.
Qed.

(* ---- normalisation ---- *)
Lemma count_pairs_bound : forall f l n, count_pairs f l = Ok n -> n <= length l /\ (n = length l -> forall p, In p l -> f p = Ok true).
Proof.
  intros f l. unfold count_pairs.
  assert (G : forall l k n, ofold (fun n p => let! b := f p in Ok (if b then S n else n)) l k = Ok n ->
    n <= k + length l /\ (n = k + length l -> forall p, In p l -> f p = Ok true)).
  { clear l. induction l as [|p l IH]; intros k n H; cbn [ofold] in H.
    - inversion H; subst. cbn. split; [lia|]. intros _ q [].
    - destruct (f p) as [b|e|] eqn:Ep; cbn [obind] in H; try discriminate. apply IH in H as [H1 H2].
      cbn [length]. destruct b; split; try lia.
      + intros E q [<-|Hq]; [exact Ep|]. apply H2; [lia|exact Hq]. }
  intros n H. exact (G l 0 n H).
Qed.
Lemma pairs_length : forall {A} n (l : list A), length l <= n -> length (pairs l) = length l / 2.
Proof.
  intros A. induction n as [|n IH]; intros l H; [destruct l; [reflexivity|cbn in H; lia]|].
  destruct l as [|a [|b l]]; [reflexivity|reflexivity|]. cbn [pairs length].
  rewrite (IH l) by (cbn in H; lia). replace (S (S (length l))) with (length l + 1 * 2) by lia.
  rewrite Nat.div_add by lia. lia.
Qed.
Lemma pairs_nth : forall {A} k (l : list A) a b, nth_error l (2 * k) = Some a -> nth_error l (2 * k + 1) = Some b -> In (a, b) (pairs l).
Proof.
  intros A. induction k as [|k IH]; intros l a b Ha Hb.
  - destruct l as [|x [|y l]]; cbn in Ha, Hb; try discriminate. inversion Ha; inversion Hb; subst. left; reflexivity.
  - replace (2 * S k) with (S (S (2 * k))) in Ha by lia. replace (2 * S k + 1) with (S (S (2 * k + 1))) in Hb by lia.
    destruct l as [|x [|y l]]; cbn [nth_error] in Ha, Hb; try discriminate. right. apply IH; assumption.
Qed.
Lemma drop_odd_wf : forall d s, wf d s -> wf (drop_odd d) (evens (fst s), evens (snd s)).
Proof. intros d s H. eapply wf_ext; [..|exact (remove_odd_wf _ _ H)]; reflexivity. Qed.
Lemma normalize_wf : forall hash d s d', wf d s -> normalize hash d = Ok d' ->
  d' = d \/ wf d' (numbered_from 0 (evens (fst s)), numbered_from 0 (evens (snd s))).
Proof.
  intros hash d s d' H E. unfold normalize in E.
  destruct (detect_empty_odd d (di_map0 d)) as [n|e|]; cbn [obind] in E; try discriminate.
  destruct (_ && _) in E; [right; exact (remap_wf _ _ _ (drop_odd_wf _ _ H) E)|].
  destruct (detect_duplicate_odd hash d (di_map0 d)) as [m|e|]; cbn [obind] in E; try discriminate.
  destruct (_ && _) in E; [right; exact (remap_wf _ _ _ (drop_odd_wf _ _ H) E)|]. left. inversion E; reflexivity.
Qed.
Lemma normalize_80 : forall hash d s d', wf d s -> normalize hash d = Ok d' -> d' <> d ->
  length (fst s) = 80 \/ length (fst s) = 81 ->
  forall k t0 t1, nth_error (fst s) (2 * k) = Some t0 -> nth_error (fst s) (2 * k + 1) = Some t1 ->
  tk_sector_ct t1 = Ok 0 \/ hash t0 = hash t1.
Proof.
  intros hash d s d' Hwf E Hne Hlen k t0 t1 H0 H1. unfold normalize in E.
  pose proof Hwf as [_ [S0 S1]]. pose proof (map_some_len _ _ _ S0) as L0.
  assert (Ld : length (di_map0 d) / 2 = 40) by (rewrite L0; destruct Hlen as [-> | ->]; reflexivity).
  assert (Hx : exists a b, In (a, b) (pairs (di_map0 d)) /\ nth_error (di_pool d) a = Some t0 /\ nth_error (di_pool d) b = Some t1).
  { pose proof (map_some_nth _ _ _ (2 * k) S0) as E0. pose proof (map_some_nth _ _ _ (2 * k + 1) S0) as E1.
    rewrite H0 in E0. rewrite H1 in E1.
    destruct (nth_error (di_map0 d) (2 * k)) as [a|] eqn:Ea; [|discriminate].
    destruct (nth_error (di_map0 d) (2 * k + 1)) as [b|] eqn:Eb; [|discriminate].
    exists a, b. split; [eapply pairs_nth; eauto|auto]. }
  destruct Hx as (a & b & Hp & Ha & Hb).
  assert (Lp : length (pairs (di_map0 d)) = 40) by (rewrite (pairs_length _ _ (le_n _)); exact Ld).
  assert (Ln : normalize_cylinders (length (di_map0 d)) = 80) by (rewrite L0; destruct Hlen as [-> | ->]; reflexivity).
  assert (Lt : normalize_cylinders (length (track_idx_iter d)) = 80).
  { assert (Hi : length (di_map0 d) <= length (track_idx_iter d)).
    { apply NoDup_incl_length; [eapply NoDup_app_l; apply Hwf|]. intros x Hx. apply iter_in, in_or_app; auto. }
    unfold normalize_cylinders. destruct (79 <? _) eqn:E79; [reflexivity|]. apply Nat.ltb_ge in E79. lia. }
  destruct (detect_empty_odd d (di_map0 d)) as [n|e|] eqn:En; cbn [obind] in E; try discriminate.
  rewrite Lt in E. change (80 / 2) with 40 in E.
  destruct ((50 <? length (track_idx_iter d)) && (40 <=? n)) eqn:C1.
  - apply andb_true_iff in C1 as [_ C1]. apply Nat.leb_le in C1.
    apply count_pairs_bound in En as [B1 B2]. rewrite Lp in B1, B2. specialize (B2 ltac:(lia) _ Hp). cbn in B2.
    unfold oindex in B2. rewrite Ha, Hb in B2. cbn [obind] in B2.
    destruct (tk_sector_ct t0) as [n0|e|]; cbn [obind] in B2; try discriminate.
    destruct (tk_sector_ct t1) as [n1|e|]; cbn [obind] in B2; try discriminate.
    left. f_equal. inversion B2 as [B3]. apply andb_true_iff in B3 as [_ B3]. apply Nat.eqb_eq in B3. exact B3.
  - destruct (detect_duplicate_odd hash d (di_map0 d)) as [m|e|] eqn:Em; cbn [obind] in E; try discriminate.
    rewrite Ln in E. change (80 / 2) with 40 in E.
    destruct ((50 <? length (di_map0 d)) && (40 <=? m)) eqn:C2; [|inversion E; congruence].
    apply andb_true_iff in C2 as [_ C2]. apply Nat.leb_le in C2.
    apply count_pairs_bound in Em as [B1 B2]. rewrite Lp in B1, B2. specialize (B2 ltac:(lia) _ Hp). cbn in B2.
    unfold oindex in B2. rewrite Ha, Hb in B2. cbn [obind] in B2.
    destruct (tk_sector_ct t0) as [n0|e|]; cbn [obind] in B2; try discriminate.
    right. inversion B2 as [B3]. apply andb_true_iff in B3 as [_ B3]. apply N.eqb_eq in B3. exact B3.
Qed.

(* ---- best revolution ---- *)
Lemma best_loop_spec : forall l i best score b,
  best_loop i l best score = b ->
  (b = best /\ forall j t, nth_error l j = Some (Some t) -> (bt_quality_score t <= score)%Z) \/
  (exists j t, b = i + j /\ nth_error l j = Some (Some t) /\ (score < bt_quality_score t)%Z /\
     (forall j' t', nth_error l j' = Some (Some t') -> (bt_quality_score t' <= bt_quality_score t)%Z) /\
     (forall j' t', j' < j -> nth_error l j' = Some (Some t') -> (bt_quality_score t' < bt_quality_score t)%Z)).
Proof.
  induction l as [|[x|] l IH]; intros i best score b H; cbn [best_loop] in H.
  - left. split; [auto|]. intros [|j] t Hj; discriminate.
  - cbv zeta in H. destruct (score <? bt_quality_score x)%Z eqn:E.
    + apply Z.ltb_lt in E. apply IH in H as [[-> H]|(j & t & -> & Hj & Hs & Hm & Hf)].
      * right. exists 0, x. split; [lia|]. split; [reflexivity|]. split; [exact E|]. split; [|intros j' t' Hlt; lia].
        intros [|j'] t' Hj'; cbn in Hj'; [inversion Hj'; lia|eapply H; eauto].
      * right. exists (S j), t. split; [lia|]. split; [exact Hj|]. split; [lia|]. split.
        -- intros [|j'] t' Hj'; cbn in Hj'; [inversion Hj'; subst; lia|eapply Hm; eauto].
        -- intros [|j'] t' Hlt Hj'; cbn in Hj'; [inversion Hj'; subst; lia|]. eapply Hf; [|exact Hj']. lia.
    + apply Z.ltb_ge in E. apply IH in H as [[-> H]|(j & t & -> & Hj & Hs & Hm & Hf)].
      * left. split; [reflexivity|]. intros [|j'] t' Hj'; cbn in Hj'; [inversion Hj'; subst; lia|eapply H; eauto].
      * right. exists (S j), t. split; [lia|]. split; [exact Hj|]. split; [lia|]. split.
        -- intros [|j'] t' Hj'; cbn in Hj'; [inversion Hj'; subst; lia|eapply Hm; eauto].
        -- intros [|j'] t' Hlt Hj'; cbn in Hj'; [inversion Hj'; subst; lia|]. eapply Hf; [|exact Hj']. lia.
  - apply IH in H as [[-> H]|(j & t & -> & Hj & Hs & Hm & Hf)].
    + left. split; [reflexivity|]. intros [|j'] t' Hj'; cbn in Hj'; [discriminate|eapply H; eauto].
    + right. exists (S j), t. split; [lia|]. split; [exact Hj|]. split; [lia|]. split.
      * intros [|j'] t' Hj'; cbn in Hj'; [discriminate|eapply Hm; eauto].
      * intros [|j'] t' Hlt Hj'; cbn in Hj'; [discriminate|]. eapply Hf; [|exact Hj']. lia.
Qed.
