(* More_props.v - completions: C27 (unknown sector, MetaSector tracks), C42 (the phase), C44 (no revolution with a
   positive score), C35 (the file header), and C52: the closest standard format. *)
From Verif Require Import Base Base_lemmas Chs_model BitRing_model Mfm_model Weak_proofs Types_model System34_model MetaSector_model
  MetaSector_spec BitStream_model DiskImage_model DiskImage2_proofs Format_model Format_props Raw_model Pce_model.
From Coq Require Import Lia.

(* ---- C27 ---- *)
Theorem C27_metasector_absent : forall t chs, (forall id, In id (ids_of t) -> chsn_s id <> chs_s chs) -> mt_next_id t chs = None.
Proof.
  intros t chs H. unfold mt_next_id. destruct (mt_sectors t) as [|f l] eqn:E; [reflexivity|]. rewrite <- E.
  assert (G : forall l, (forall id, In id l -> chsn_s id <> chs_s chs) -> MetaSector_model.next_id_loop chs false l = (None, false)).
  { clear. induction l as [|x l IH]; intros H; cbn [MetaSector_model.next_id_loop]; [reflexivity|].
    destruct (N.eqb_spec (chsn_s x) (chs_s chs)); [exfalso; eapply H; [left; reflexivity|auto]|]. apply IH. intros; apply H; right; auto. }
  fold (ids_of t). rewrite G by exact H. reflexivity.
Qed.
Example C27_metasector_absent_ex :
  let s k := mkMS (mkChsn (mkChs 5 1 k) 0) false false false false (repeat k 128) (mask_empty 128) (mask_empty 128) in
  mt_next_id (mkMST (mkCh 5 1) [s 1%N; s 2%N]) (mkChs 5 1 9) = None /\
  mt_next_id (mkMST (mkCh 5 1) [s 1%N; s 2%N]) (mkChs 5 1 1) = Some (mkChsn (mkChs 5 1 2) 0).
Proof. split; vm_compute; reflexivity. Qed.

(* ---- C42 ---- *)
(* If the first run of 32 alternating cells (1010...) after cell 0 starts at cell q, the phase reported for the
   track is "odd" exactly when q is even: the inverse of the phase of the clock cells. *)
Theorem C42_phase : forall l q, 1 <= q -> sync_at l q -> (forall q', 1 <= q' < q -> ~ sync_at l q') ->
  get_mfm_sync_offset l = Some (Nat.even q).
Proof.
  intros l q Hq Hs Hf. unfold get_mfm_sync_offset. pose proof (find_sync_spec l) as G.
  destruct (find_sync l 0) as [p|]; [|exfalso; eapply G; eauto].
  destruct G as [G1 G2].
  assert (p + 1 = q).
  { destruct (Nat.lt_trichotomy (p + 1) q) as [H|[H|H]]; auto; exfalso; [apply (Hf (p + 1)); [lia|auto]|apply (G2 q); [lia|auto]]. }
  subst q. replace (p + 1) with (S p) by lia. rewrite Nat.even_succ.
  pose proof (Nat.div_mod p 2 ltac:(lia)) as D. pose proof (Nat.mod_upper_bound p 2 ltac:(lia)) as U.
  destruct (Nat.eqb_spec (p mod 2) 0) as [E|E].
  - f_equal. symmetry. rewrite <- Nat.negb_even. rewrite D, E, Nat.add_0_r, Nat.even_mul. reflexivity.
  - f_equal. symmetry. rewrite <- Nat.negb_even. assert (E1 : p mod 2 = 1) by lia. rewrite D, E1.
    rewrite Nat.add_comm. rewrite Nat.even_add_mul_2. reflexivity.
Qed.
Theorem C42_no_sync : forall l, (forall q, 1 <= q -> ~ sync_at l q) -> get_mfm_sync_offset l = None.
Proof.
  intros l H. unfold get_mfm_sync_offset. pose proof (find_sync_spec l) as G. destruct (find_sync l 0) as [p|]; [|reflexivity].
  exfalso. apply (H (p + 1)); [lia|]. apply G.
Qed.
Example C42_phase_ex : sync_at (false :: false :: flat_map (fun _ => [true; false]) (seq 0 16)) 2 /\
  get_mfm_sync_offset (false :: false :: flat_map (fun _ => [true; false]) (seq 0 16)) = Some true.
Proof. split; [split; [vm_compute; lia|vm_compute; reflexivity]|vm_compute; reflexivity]. Qed.

(* ---- C44 ---- *)
(* When no revolution has a positive score the first revolution is presented. *)
Theorem C44_no_positive : forall d ch b0 bs d' ti, add_track_fluxstream d ch (Ok (b0 :: bs)) = (d', Ok ti) ->
  (forall b, In b (b0 :: bs) -> (bt_quality_score b <= 0)%Z) ->
  exists f, nth_error (di_pool d') ti = Some (TFlux f) /\ ft_ch f = ch /\ ft_bitstream f = Ok (Some b0).
Proof.
  intros d ch b0 bs d' ti H Hn. unfold add_track_fluxstream in H.
  destruct (2 <=? ch_h ch)%N; [discriminate|]. destruct (res_rejects d RFluxStream); [discriminate|].
  injection H as Hd' Hti. subst d' ti.
  exists (mkFlux ch (length (b0 :: bs)) (map Some (b0 :: bs)) (best_loop 0 (map Some (b0 :: bs)) 0 0%Z)).
  split; [|split; [reflexivity|]].
  - cbn. rewrite nth_error_app2 by (cbn; lia). cbn. rewrite Nat.sub_diag. reflexivity.
  - destruct (best_loop_spec (map Some (b0 :: bs)) 0 0 0%Z _ eq_refl) as [[Hb _]|(j & t & Hb & Hj & Hs & _)].
    + unfold ft_bitstream. cbn [ft_best ft_revs ft_decoded]. rewrite Hb. reflexivity.
    + exfalso. rewrite nth_error_map in Hj. destruct (nth_error (b0 :: bs) j) as [x|] eqn:E; [|discriminate].
      cbn [option_map] in Hj. injection Hj as ->. specialize (Hn t (nth_error_In _ _ E)). lia.
Qed.
Example C44_no_positive_ex : forall m, let b := mkTrack (mkCh 0 0) m (mkMeta [] [] []) true in
  (bt_quality_score b <= 0)%Z /\ exists d', add_track_fluxstream di_default (mkCh 0 0) (Ok [b; b]) = (d', Ok 0).
Proof. intros m b. split; [vm_compute; discriminate|]. eexists. reflexivity. Qed.

(* ---- C35 ---- *)
(* A file whose first chunk is not a file header of at least four bytes is rejected. *)
Theorem C35_not_pri : forall rnd scale d file t data rest, pri_read_chunk file = Ok (t, data, rest) ->
  t <> PriFileHeader \/ length data < 4 -> exists e, pri_load_image rnd scale d file = Err e.
Proof.
  intros rnd scale d file t data rest E H. unfold pri_load_image. rewrite E. cbn [obind].
  destruct t; eauto. destruct H as [H|H]; [congruence|]. rewrite (proj2 (Nat.ltb_lt _ _) H). eauto.
Qed.
Example C35_not_pri_ex : pri_read_chunk (pri_write_chunk PriFileHeader [0; 0; 0]%N) = Ok (PriFileHeader, [0; 0; 0]%N, []).
Proof. vm_compute. reflexivity. Qed.

(* ---- C52: the closest standard format ---- *)
(* the format the boot sector's parameter block identifies *)
Definition boot_says (boot : option BootSector) : option StandardFormat :=
  match boot with Some b => boot_standard_format b | None => None end.
(* the format matching the shape of the image: head count, a track count near 40 or 80, and the number of sectors all
   tracks have (as u8).  The 1.76 MB Amiga format is never identified. *)
Definition shape_says (d : DiskImage) (f : StandardFormat) : Prop :=
  f <> AmigaFloppy1760 /\ exists spt, da_spt (di_analysis d) = Some spt /\ l_s (sf_layout f) = (spt mod 256)%N /\
  l_h (sf_layout f) = ch_h (di_geom d) /\
  let n := length (di_map0 d) in
  (l_c (sf_layout f) = 40%N /\ 35 <= n < 50 \/ l_c (sf_layout f) = 80%N /\ 75 <= n < 100).

Definition shape_format (d : DiskImage) : option StandardFormat :=
  match da_spt (di_analysis d) with
  | Some spt => match normalized_track_ct (N.of_nat (length (di_map0 d))) with
                | Some c => sf_of_chs (mkChs c (ch_h (di_geom d)) (as_u8 spt))
                | None => None
                end
  | None => None
  end.
Lemma shape_format_spec d f : shape_format d = Some f <-> shape_says d f.
Proof.
  unfold shape_format, shape_says. destruct (da_spt (di_analysis d)) as [spt|] eqn:Es.
  2: { split; [discriminate|]. intros (_ & x & Hx & _). discriminate. }
  unfold normalized_track_ct. set (n := length (di_map0 d)).
  assert (G : forall c, sf_of_chs (mkChs c (ch_h (di_geom d)) (as_u8 spt)) = Some f <->
     f <> AmigaFloppy1760 /\ l_c (sf_layout f) = c /\ l_h (sf_layout f) = ch_h (di_geom d) /\ l_s (sf_layout f) = (spt mod 256)%N).
  { intros c. split.
    - intros H. pose proof (C28_chs_sound _ _ H) as K. unfold sf_chs in K. split; [|].
      + intros ->. assert (X : mkChs c (ch_h (di_geom d)) (as_u8 spt) = sf_chs AmigaFloppy1760) by (rewrite <- K; reflexivity).
        rewrite X in H. destruct C28_roundtrip_1760_refuted as [_ Y]. congruence.
      + unfold as_u8 in K. change (2 ^ 8)%N with 256%N in K. injection K as A B C. auto.
    - intros (H & A & B & C). destruct (C28_roundtrip f H) as [_ R]. rewrite <- R. f_equal. unfold sf_chs. rewrite A, B, C. reflexivity. }
  destruct (N.leb_spec 35 (N.of_nat n)); destruct (N.ltb_spec (N.of_nat n) 50); destruct (N.leb_spec 75 (N.of_nat n)); destruct (N.ltb_spec (N.of_nat n) 100);
    cbn [andb]; try lia; try rewrite G.
  all: split; [first [discriminate | intros (A & B & C & D); split; [exact A|]; exists spt; split; [reflexivity|]; split; [exact D|]; split; [exact C|]; lia]|].
  all: intros (A & x & Hx & C & D & K); injection Hx as <-; first [exfalso; lia | split; [exact A|]; split; [lia|]; split; [exact D|exact C]].
Qed.

Theorem C52_closest_format : forall d boot trust_bpb,
  (forall f, closest_format d boot trust_bpb = Some f <->
     if trust_bpb then boot_says boot = Some f \/ boot_says boot = None /\ shape_says d f
     else shape_says d f \/ (forall g, ~ shape_says d g) /\ boot_says boot = Some f).
Proof.
  intros d boot trust f.
  assert (E : closest_format d boot trust = if trust then match boot_says boot with Some g => Some g | None => shape_format d end
              else match shape_format d with Some g => Some g | None => boot_says boot end).
  { unfold closest_format. fold (boot_says boot). fold (shape_format d).
    destruct (boot_says boot) as [a|], (shape_format d) as [b|]; cbn [is_some orb osf_eqb andb negb]; destruct trust; cbn [andb]; try reflexivity.
    - destruct (sf_eqb a b); reflexivity.
    - destruct (sf_eqb a b) eqn:Q; cbn [negb]; [|reflexivity]. destruct a, b; try discriminate Q; reflexivity. }
  rewrite E. destruct trust.
  - destruct (boot_says boot) as [a|]; [split; [auto|intros [H|[H _]]; congruence]|].
    rewrite shape_format_spec. split; [auto|intros [H|[_ H]]; [discriminate|auto]].
  - destruct (shape_format d) as [b|] eqn:Es.
    + assert (Hb : shape_says d b) by (apply shape_format_spec; auto).
      split; [intros K; injection K as <-; auto|]. intros [H|[H _]]; [|exfalso; eapply H; eauto].
      apply shape_format_spec in H. congruence.
    + assert (Hn : forall g, ~ shape_says d g) by (intros g Hg; apply shape_format_spec in Hg; congruence).
      split; [auto|]. intros [H|[_ H]]; [exfalso; eapply Hn; eauto|auto].
Qed.
(* an image with 80 tracks of 9 sectors, and a parameter block of a 1.44 MB disk or none at all *)
Definition c52_img : DiskImage :=
  mkDI false [] (mkCh 80 2) (mkDA caps_empty false false false false (Some 2%N) (Some 9%N)) [] (seq 0 80) (seq 80 80).
Example C52_ex : shape_says c52_img PcFloppy720 /\ closest_format c52_img None true = Some PcFloppy720 /\ closest_format c52_img None false = Some PcFloppy720.
Proof.
  split; [|split; vm_compute; reflexivity].
  split; [discriminate|]. exists 9%N. split; [reflexivity|]. split; [reflexivity|]. split; [reflexivity|]. right. split; [reflexivity|].
  change (di_map0 c52_img) with (seq 0 80). rewrite seq_length. lia.
Qed.

Print Assumptions C27_metasector_absent.
Print Assumptions C42_phase.
Print Assumptions C42_no_sync.
Print Assumptions C44_no_positive.
Print Assumptions C35_not_pri.
Print Assumptions C52_closest_format.
