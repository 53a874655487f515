(* Tc_props.v - C53: TransCopy files. *)
From Verif Require Import Base Base_lemmas BitRing_proofs Mfm_spec
  Chs_model BitRing_model Mfm_model Types_model System34_model MetaSector_model BitStream_model DiskImage_model DiskImage_spec DiskImage_proofs
  Format_model Raw_model Format2_proofs TreeMap_proofs Pce_spec Pce3_proofs Pce4_proofs F86_model F86_spec F86_proofs Layout_spec Layout_proofs Tc_model Tc_spec Tc_proofs.
From Coq Require Import Lia.

(* what is left of the loader once the fields are read *)
Definition tc_after (rnd : Rnd) (d : DiskImage) (file : list N) : outcome DiskImage :=
  if negb ((byte_at file 0 =? 0x5A) && (byte_at file 1 =? 0xA5))%N then Err UnsupportedFormat else
  if negb (0x905 <=? length file) then Err FormatParseError else
  if negb (existsb (N.eqb (byte_at file 0x100)) [0xFF; 0x02; 0x03; 0x07]%N) then Err IncompatibleImage else
  if negb (byte_at file 0x101 =? 0)%N then Err IncompatibleImage else
  if negb (byte_at file 0x104 =? 1)%N then Err IncompatibleImage else
  let ct := count_until 0x3333 (map (tc_size file) (seq 0 256)) in
  if negb (count_until 0x1111 (map (tc_skew file) (seq 0 256)) =? ct) || negb (count_until 0 (map (tc_offset file) (seq 0 256)) =? ct) ||
     negb (count_until 0x4444 (map (tc_flag file) (seq 0 256)) =? ct) then Err IncompatibleImage else
  let ct := 2 * (ct / 2) in
  let! _ := tc_check (entries file ct) (N.of_nat (length file)) in
  if negb ((byte_at file 0x103 =? 1) || (byte_at file 0x103 =? 2))%N then Err IncompatibleImage else
  let! d := tc_tracks rnd file (byte_at file 0x103) (entries file ct) 0 0 d in
  Ok (with_geom d (mkCh (as_u16 (N.of_nat ct / byte_at file 0x103)) (byte_at file 0x103))).
Lemma half_le n : n <= 256 -> 2 * (n / 2) <= 256. Proof. intros H. pose proof (Nat.mul_div_le n 2 ltac:(discriminate)). lia. Qed.
Lemma load_after rnd d file : tc_load_image rnd d file = if length file <? 256 then Err UnsupportedFormat else tc_after rnd d file.
Proof.
  unfold tc_load_image. rewrite header_of. destruct (Nat.ltb_spec (length file) 256) as [A|A]; [reflexivity|]. cbn [obind].
  rewrite !firstn_nth_byte by lia. unfold tc_after. destruct (negb _); [reflexivity|]. rewrite info_read by exact A.
  destruct (0x905 <=? length file); cbn [negb]; [|reflexivity]. cbn [obind]. unfold info_of at 1 2 3 4 5 6 7 8 9 10. cbn [tc_type tc_start tc_sides tc_incr tc_skews tc_offsets tc_sizes tc_flags].
  destruct (negb _); [reflexivity|]. destruct (negb _); [reflexivity|]. destruct (negb _); [reflexivity|]. cbv zeta.
  set (ct := count_until 0x3333 _). assert (L : ct <= 256) by apply count_until_inv. clearbody ct.
  destruct (_ || _); [reflexivity|]. pose proof (firstn_entries file (2 * (ct / 2)) (half_le _ L)) as E. unfold info_of in E. cbn [tc_offsets tc_sizes] in E.
  unfold info_of. cbn [tc_offsets tc_sizes tc_sides]. rewrite E. reflexivity.
Qed.
Lemma used_counts file n : tc_used file n -> count_until 0x3333 (map (tc_size file) (seq 0 256)) = n /\ count_until 0x1111 (map (tc_skew file) (seq 0 256)) = n /\
  count_until 0 (map (tc_offset file) (seq 0 256)) = n /\ count_until 0x4444 (map (tc_flag file) (seq 0 256)) = n.
Proof.
  intros (A & B & C).
  split; [|split; [|split]].
  - apply count_until_spec; [intros i Hi; destruct (B i Hi) as (H1 & H2 & H3 & H4); exact H3|intros Hn; destruct (C Hn) as (H1 & H2 & H3 & H4); exact H3|exact A].
  - apply count_until_spec; [intros i Hi; destruct (B i Hi) as (H1 & H2 & H3 & H4); exact H1|intros Hn; destruct (C Hn) as (H1 & H2 & H3 & H4); exact H1|exact A].
  - apply count_until_spec; [intros i Hi; destruct (B i Hi) as (H1 & H2 & H3 & H4); exact H2|intros Hn; destruct (C Hn) as (H1 & H2 & H3 & H4); exact H2|exact A].
  - apply count_until_spec; [intros i Hi; destruct (B i Hi) as (H1 & H2 & H3 & H4); exact H4|intros Hn; destruct (C Hn) as (H1 & H2 & H3 & H4); exact H4|exact A].
Qed.
Lemma after_valid rnd d file used sides : tc_file file used sides ->
  tc_after rnd d file = let! d := add_jobs rnd (map (tc_job file sides) (seq 0 (2 * (used / 2)))) d in
    Ok (with_geom d (mkCh (N.of_nat (2 * (used / 2) / sides)) (N.of_nat sides))).
Proof.
  intros [Hlen [M0 M1] Hty Hst [Hsd Hs12] Hinc Hus Hin]. unfold tc_after. rewrite M0, M1. change ((0x5A =? 0x5A) && (0xA5 =? 0xA5))%N with true. cbn [negb].
  replace (0x905 <=? length file) with true by (symmetry; apply Nat.leb_le; exact Hlen). cbn [negb].
  assert (Et : existsb (N.eqb (byte_at file 0x100)) [0xFF; 2; 3; 7]%N = true) by (apply existsb_exists; exists (byte_at file 0x100); split; [exact Hty|apply N.eqb_refl]).
  rewrite Et, Hst, Hinc. change (0 =? 0)%N with true. change (1 =? 1)%N with true. cbn [negb].
  destruct (used_counts file used Hus) as (-> & -> & -> & ->). rewrite Nat.eqb_refl. cbn [negb orb]. cbv zeta.
  destruct Hus as (U1 & U2 & _). pose proof (half_le _ U1) as HL. assert (HU : 2 * (used / 2) <= used) by apply Nat.mul_div_le, Nat.neq_succ_0.
  set (n := 2 * (used / 2)) in *. clearbody n.
  assert (Ec : tc_check (entries file n) (N.of_nat (length file)) = Ok tt).
  { apply check_spec. unfold entries. apply Forall_map. apply Forall_forall. intros i Hi. apply in_seq in Hi. cbn [fst snd].
    destruct (Hin i ltac:(lia)) as [A B]. destruct (U2 i ltac:(lia)) as (_ & C & _). tauto. }
  rewrite Ec. cbn [obind]. rewrite Hsd.
  assert (Es : ((N.of_nat sides =? 1) || (N.of_nat sides =? 2))%N = true) by (destruct Hs12 as [-> | ->]; reflexivity). rewrite Es. cbn [negb].
  pose proof (tracks_jobs rnd file sides Hs12 n 0 d) as T. rewrite Nat.mod_0_l in T by (destruct Hs12; lia). change (N.of_nat 0) with 0%N in T.
  unfold entries. rewrite T; [|intros k Hk; apply Hin; lia|lia].
  destruct (add_jobs _ _ _) as [d1| |]; cbn [obind]; [|reflexivity|reflexivity].
  do 3 f_equal. unfold as_u16. rewrite N.mod_small; [rewrite <- Nnat.Nat2N.inj_div; reflexivity|].
  rewrite <- Nnat.Nat2N.inj_div. pose proof (Nat.div_le_upper_bound n sides n ltac:(destruct Hs12; lia) ltac:(destruct Hs12; nia)). lia.
Qed.
Lemma tc_small file used sides : tc_file file used sides -> (length file <? 256) = false.
Proof. intros [H _ _ _ _ _ _ _]. apply Nat.ltb_ge. eapply Nat.le_trans; [|exact H]. apply Nat.leb_le. reflexivity. Qed.

(* ---- C53 ---- *)
(* A TransCopy file gives, on cylinder i/sides, head i mod sides, exactly the bytes the tables assign to track i.  The number of tracks
   is rounded down to an even number. *)
Theorem C53_load : forall rnd file used sides, tc_file file used sides ->
  let n := 2 * (used / 2) in
  (forall i, i < n -> exists ch t, bt_new (rnd_bit rnd) ch (tc_data file i) None None true = Ok t) ->
  exists d' s', tc_load_image rnd di_default file = Ok d' /\ maps_valid d' /\ shows d' s' /\
    di_geom d' = mkCh (N.of_nat (n / sides)) (N.of_nat sides) /\
    length (fst s') = n / sides /\ length (snd s') = (if sides =? 2 then n / sides else 0) /\
    forall i, i < n -> exists t, nth_error (side s' (N.of_nat (i mod sides))) (i / sides) = Some (TBit t) /\
      bt_ch t = mkCh (N.of_nat (i / sides)) (N.of_nat (i mod sides)) /\ tc_holds t (tc_data file i).
Proof.
  intros rnd file used sides V n Hscan. rewrite load_after, (tc_small _ _ _ V), (after_valid _ _ _ _ _ V). fold n.
  pose proof (tf_sides _ _ _ V) as [_ Hs].
  set (track i := match job_track rnd (tc_job file sides i) with Ok t => t | _ => mkTrack (mkCh 0 0) (bt_data (mkTrack (mkCh 0 0) (mkMfm (ring_from []) (ring_from []) (ring_from []) false (ring_from []) 0 0 [] []) meta_default false)) meta_default false end).
  assert (HT : forall i, i < n -> job_track rnd (tc_job file sides i) = Ok (track i)).
  { intros i Hi. unfold track. destruct (Hscan i Hi) as (ch & t & E). unfold job_track, tc_job. cbn [aj_ch aj_data aj_weak aj_ct aj_detect].
    apply new_any_ch with (ch' := mkCh (N.of_nat (i / sides)) (N.of_nat (i mod sides))) in E. rewrite E. reflexivity. }
  assert (Hmod : forall i, i mod sides < sides) by (intros i; apply Nat.mod_upper_bound; destruct Hs; lia).
  clearbody track. set (ts := map track (seq 0 n)).
  assert (F : Forall2 (fun j t => (ch_h (aj_ch j) < 2)%N /\ job_track rnd j = Ok t) (map (tc_job file sides) (seq 0 n)) ts).
  { unfold ts. assert (Hb : forall i, In i (seq 0 n) -> i < n) by (intros i Hi; apply in_seq in Hi; lia). revert Hb. generalize (seq 0 n). induction l as [|i l IH]; intros Hb; constructor.
    - split; [|apply HT, Hb; left; reflexivity]. cbn [tc_job aj_ch ch_h]. specialize (Hmod i). destruct Hs; lia.
    - apply IH. intros; apply Hb; right; assumption. }
  destruct (add_jobs_ok rnd _ _ di_default ([], []) F (empty_wf di_default eq_refl eq_refl eq_refl) ltac:(split; [reflexivity|left; reflexivity])) as (d1 & E & W & _ & _ & _).
  rewrite E. cbn [obind].
  assert (Hts : forall i t, nth_error ts i = Some t -> i < n /\ t = track i).
  { intros i t H. unfold ts in H. assert (Hi : i < n) by (apply Nat.nle_gt; intros G; rewrite (proj2 (nth_error_None _ _)) in H by (rewrite map_length, seq_length; exact G); discriminate).
    rewrite nth_error_map, (nth_error_nth' _ 0) in H by (rewrite seq_length; exact Hi). rewrite seq_nth in H by exact Hi. injection H as <-. split; [exact Hi|reflexivity]. }
  assert (Hts2 : forall i, i < n -> nth_error ts i = Some (track i)).
  { intros i Hi. unfold ts. rewrite nth_error_map, (nth_error_nth' _ 0) by (rewrite seq_length; exact Hi). rewrite seq_nth by exact Hi. reflexivity. }
  assert (Hch : forall i, i < n -> bt_ch (track i) = mkCh (N.of_nat (i / sides)) (N.of_nat (i mod sides)) /\ tc_holds (track i) (tc_data file i)).
  { intros i Hi. specialize (HT i Hi). unfold job_track, tc_job in HT. cbn [aj_ch aj_data aj_weak aj_ct aj_detect] in HT. apply new_detect in HT; [exact HT|].
    destruct (tf_inside _ _ _ V i Hi) as [A B]. unfold tc_data, bytes_at. intros Z. apply (f_equal (@length _)) in Z. rewrite firstn_length, skipn_length in Z. cbn in Z. lia. }
  assert (Lts : length ts = n) by (unfold ts; rewrite map_length, seq_length; reflexivity).
  clearbody ts. exists (with_geom d1 (mkCh (N.of_nat (n / sides)) (N.of_nat sides))), (on_head 0 ts, on_head 1 ts).
  split; [reflexivity|].
  assert (W' : wf (with_geom d1 (mkCh (N.of_nat (n / sides)) (N.of_nat sides))) (on_head 0 ts, on_head 1 ts)) by exact W.
  split; [apply W'|]. split; [apply wf_shows; exact W'|]. split; [reflexivity|]. cbn [fst snd].
  assert (P1 : forall i t, nth_error ts i = Some t -> ch_h (bt_ch t) = N.of_nat (i mod sides)).
  { intros i t H. destruct (Hts i t H) as [Hi ->]. rewrite (proj1 (Hch i Hi)). reflexivity. }
  assert (En : n = 2 * (used / 2)) by reflexivity. clearbody n.
  destruct Hs as [-> | ->].
  - destruct (on_head_single ts) as [A B].
    { apply Forall_forall. intros t Ht. apply In_nth_error in Ht as [i Hi]. rewrite (P1 i t Hi), Nat.mod_1_r. reflexivity. }
    rewrite A, B, map_length, Lts, Nat.div_1_r. split; [reflexivity|]. split; [reflexivity|]. intros i Hi. exists (track i).
    rewrite Nat.mod_1_r, Nat.div_1_r. cbn [N.of_nat side fst]. rewrite nth_error_map, (Hts2 i Hi). split; [reflexivity|]. pose proof (Hch i Hi) as Hc. rewrite Nat.mod_1_r, Nat.div_1_r in Hc. exact Hc.
  - destruct (on_head_two_length (used / 2) ts ltac:(lia) P1) as [A B]. rewrite A, B. replace (n / 2) with (used / 2) by (rewrite En, Nat.mul_comm, Nat.div_mul by discriminate; reflexivity).
    split; [reflexivity|]. split; [reflexivity|]. intros i Hi. exists (track i). split; [|apply Hch; exact Hi].
    destruct (on_head_two _ ts 0 eq_refl eq_refl P1 (i / 2)) as [Q0 Q1].
    assert (D : i mod 2 = 0 /\ 2 * (i / 2) = i \/ i mod 2 = 1 /\ 2 * (i / 2) + 1 = i) by dlia.
    destruct D as [[D1 D2]|[D1 D2]]; rewrite D1; [change (N.of_nat 0) with 0%N|change (N.of_nat 1) with 1%N]; cbn [side fst snd]; rewrite ?Q0, ?Q1, D2, (Hts2 i Hi); reflexivity.
Qed.
Lemma valid_or_err rnd d file : (exists used sides, tc_file file used sides) \/ exists e, tc_after rnd d file = Err e.
Proof.
  unfold tc_after.
  destruct ((byte_at file 0 =? 0x5A)%N) eqn:M0; [|right; eexists; reflexivity]. destruct ((byte_at file 1 =? 0xA5)%N) eqn:M1; [|right; eexists; reflexivity]. cbn [andb negb].
  destruct (0x905 <=? length file) eqn:L; [|right; eexists; reflexivity]. cbn [negb].
  destruct (existsb _ _) eqn:Ty; [|right; eexists; reflexivity]. cbn [negb]. destruct (byte_at file 0x101 =? 0)%N eqn:St; [|right; eexists; reflexivity]. cbn [negb].
  destruct (byte_at file 0x104 =? 1)%N eqn:In1; [|right; eexists; reflexivity]. cbn [negb]. cbv zeta.
  set (ct := count_until 0x3333 _) in *. destruct (count_until 0x1111 _ =? ct) eqn:C1; [|right; eexists; reflexivity]. cbn [negb orb].
  destruct (count_until 0 _ =? ct) eqn:C2; [|right; eexists; reflexivity]. cbn [negb orb]. destruct (count_until 0x4444 _ =? ct) eqn:C3; [|right; eexists; reflexivity]. cbn [negb].
  destruct (tc_check _ _) as [[]| |] eqn:Ck; cbn [obind]; [|right; eexists; reflexivity|exfalso; exact (check_never_panics _ _ Ck)].
  destruct ((byte_at file 0x103 =? 1) || (byte_at file 0x103 =? 2))%N eqn:Sd; [|right; eexists; reflexivity]. left.
  exists ct, (N.to_nat (byte_at file 0x103)).
  apply N.eqb_eq in M0, M1, St, In1. apply Nat.eqb_eq in C1, C2, C3. apply Nat.leb_le in L.
  pose proof (count_until_inv 0x3333 (tc_size file) 256) as (A1 & A2 & A3). pose proof (count_until_inv 0x1111 (tc_skew file) 256) as (B1 & B2 & B3).
  pose proof (count_until_inv 0 (tc_offset file) 256) as (D1 & D2 & D3). pose proof (count_until_inv 0x4444 (tc_flag file) 256) as (F1 & F2 & F3).
  fold ct in A1, A2, A3. rewrite C1 in B1, B2, B3. rewrite C2 in D1, D2, D3. rewrite C3 in F1, F2, F3. clearbody ct. clear C1 C2 C3.
  constructor; [exact L|exact (conj M0 M1)| |exact St| |exact In1| |].
  - apply existsb_exists in Ty as (x & Hx & Ex). apply N.eqb_eq in Ex. rewrite Ex. exact Hx.
  - split; [symmetry; apply N2Nat.id|]. apply Bool.orb_true_iff in Sd as [Sd|Sd]; apply N.eqb_eq in Sd; rewrite Sd; [left|right]; reflexivity.
  - split; [exact A1|]. split; [intros i Hi; exact (conj (B2 i Hi) (conj (D2 i Hi) (conj (A2 i Hi) (F2 i Hi))))|]. intros Hn. exact (conj (B3 Hn) (conj (D3 Hn) (conj (A3 Hn) (F3 Hn)))).
  - intros i Hi. apply check_spec in Ck. unfold entries in Ck. rewrite Forall_map in Ck. rewrite Forall_forall in Ck.
    specialize (Ck i ltac:(apply in_seq; lia)). cbn [fst snd] in Ck. tauto.
Qed.
(* Only such files are loaded *)
Theorem C53_accepted : forall rnd d file d', tc_load_image rnd d file = Ok d' -> exists used sides, tc_file file used sides.
Proof.
  intros rnd d file d' E. rewrite load_after in E. destruct (length file <? 256); [discriminate|].
  destruct (valid_or_err rnd d file) as [V|[e V]]; [exact V|]. rewrite V in E. discriminate.
Qed.
(* A panic comes from scanning one of the tracks, never from the file's fields; an unacceptable file is an error *)
Lemma add_jobs_panic rnd : forall jobs d, Forall (fun j => (ch_h (aj_ch j) < 2)%N) jobs -> res_free d -> add_jobs rnd jobs d = Panic ->
  exists j, In j jobs /\ job_track rnd j = Panic.
Proof.
  induction jobs as [|j jobs IH]; intros d F R E; [discriminate|]. inversion F as [|? ? Hj F']; subst. cbn [add_jobs] in E.
  pose proof (add_job_fails rnd d j Hj R) as A. destruct (job_track rnd j) as [t| |] eqn:Et.
  - assert (Q : exists d1, add_job rnd d j = Ok d1 /\ res_free d1).
    { destruct R as [Hmul Hres]. unfold add_job, add_track_bitstream. replace (2 <=? ch_h (aj_ch j))%N with false by (symmetry; apply N.leb_gt; exact Hj).
      assert (Hrej : res_rejects d RBitStream = false) by (unfold res_rejects; rewrite Hmul; destruct Hres as [-> | ->]; reflexivity).
      rewrite Hrej. unfold job_track in Et. rewrite Et. cbn [obind]. eexists. split; [reflexivity|]. split; [exact Hmul|right]. unfold push_track; cbn; destruct Hres as [-> | ->]; reflexivity. }
    destruct Q as (d1 & Q1 & Q2). rewrite Q1 in E. cbn [obind] in E. destruct (IH d1 F' Q2 E) as (j' & I & P). exists j'. split; [right; exact I|exact P].
  - rewrite A in E. discriminate.
  - exists j. split; [left; reflexivity|exact Et].
Qed.
Theorem C53_panic : forall rnd file, tc_load_image rnd di_default file = Panic ->
  exists i ch, bt_new (rnd_bit rnd) ch (tc_data file i) None None true = Panic.
Proof.
  intros rnd file E. rewrite load_after in E. destruct (length file <? 256); [discriminate|].
  destruct (valid_or_err rnd di_default file) as [(used & sides & V)|[e V]]; [|rewrite V in E; discriminate].
  rewrite (after_valid _ _ _ _ _ V) in E. pose proof (tf_sides _ _ _ V) as [_ Hs].
  destruct (add_jobs _ _ _) as [d1| |] eqn:EJ; try discriminate. apply add_jobs_panic in EJ as (j & Hj & P).
  - apply in_map_iff in Hj as (i & <- & _). eexists _, _. exact P.
  - apply Forall_map, Forall_forall. intros i _. cbn [tc_job aj_ch ch_h]. pose proof (Nat.mod_upper_bound i sides ltac:(destruct Hs; lia)). destruct Hs; lia.
  - split; [reflexivity|left; reflexivity].
Qed.
(* Finding: a one-sided image with an odd number of tracks loses its last track *)
Definition demo_tc : list N :=
  [0x5A; 0xA5]%N ++ repeat 0%N 254 ++ [7; 0; 2; 1; 1]%N ++
  [0; 0; 0; 0; 0; 0]%N ++ flat_map (fun _ => [0x11; 0x11]%N) (seq 0 253) ++
  [0; 10; 0; 11; 0; 10]%N ++ flat_map (fun _ => [0; 0]%N) (seq 0 253) ++
  [2; 0; 2; 0; 1; 0]%N ++ flat_map (fun _ => [0x33; 0x33]%N) (seq 0 253) ++
  [0; 0; 0; 0; 0; 0]%N ++ flat_map (fun _ => [0x44; 0x44]%N) (seq 0 253) ++
  repeat 0%N (2560 - 2309) ++ [0x55; 0x80]%N ++ repeat 0%N 254 ++ [0; 0xFF]%N.
Lemma demo_tc_file : tc_file demo_tc 3 1.
Proof.
  constructor.
  - apply Nat.leb_le. vm_compute. reflexivity.
  - split; vm_compute; reflexivity.
  - vm_compute. tauto.
  - vm_compute. reflexivity.
  - split; [vm_compute; reflexivity|left; reflexivity].
  - vm_compute. reflexivity.
  - split; [apply Nat.leb_le; vm_compute; reflexivity|]. split.
    + intros i Hi. assert (D : i = 0 \/ i = 1 \/ i = 2) by lia. destruct D as [-> | [-> | ->]]; repeat split; vm_compute; discriminate.
    + intros _. repeat split; vm_compute; reflexivity.
  - intros i Hi. change (2 * (3 / 2)) with 2 in Hi. assert (D : i = 0 \/ i = 1) by lia.
    destruct D as [-> | ->]; (split; [vm_compute; discriminate|apply N.leb_le; vm_compute; reflexivity]).
Qed.
Lemma demo_scans rnd : forall i, i < 2 -> exists ch t, bt_new (rnd_bit rnd) ch (tc_data demo_tc i) None None true = Ok t.
Proof.
  intros i Hi. exists (mkCh 0 0). assert (D : i = 0 \/ i = 1) by lia. destruct D as [-> | ->].
  - assert (E : tc_data demo_tc 0 = [0x55; 0x80]%N) by (vm_compute; reflexivity). rewrite E. eexists. reflexivity.
  - assert (E : tc_data demo_tc 1 = [0; 0xFF]%N) by (vm_compute; reflexivity). rewrite E. eexists. reflexivity.
Qed.
Theorem C53_odd_one_sided_refuted : exists file, tc_file file 3 1 /\
  forall rnd, exists d' s', tc_load_image rnd di_default file = Ok d' /\ shows d' s' /\ length (fst s') = 2 /\ snd s' = [].
Proof.
  exists demo_tc. split; [exact demo_tc_file|]. intros rnd.
  destruct (C53_load rnd demo_tc 3 1 demo_tc_file (demo_scans rnd)) as (d' & s' & A & _ & B & _ & C & D & _). exists d', s'.
  split; [exact A|]. split; [exact B|]. split; [exact C|]. change (1 =? 2) with false in D. cbv iota in D. destruct (snd s'); [reflexivity|discriminate].
Qed.
Example C53_demo : forall rnd, exists d' s' t, tc_load_image rnd di_default demo_tc = Ok d' /\ shows d' s' /\
  nth_error (fst s') 1 = Some (TBit t) /\ tc_holds t [0; 0xFF]%N.
Proof.
  intros rnd. destruct (C53_load rnd demo_tc 3 1 demo_tc_file (demo_scans rnd)) as (d' & s' & A & _ & B & _ & _ & _ & D).
  destruct (D 1 ltac:(change (2 * (3 / 2)) with 2; lia)) as (t & T & _ & H). exists d', s', t. split; [exact A|]. split; [exact B|]. split; [exact T|].
  assert (E : tc_data demo_tc 1 = [0; 0xFF]%N) by (vm_compute; reflexivity). rewrite <- E. exact H.
Qed.

Print Assumptions C53_load.
Print Assumptions C53_accepted.
Print Assumptions C53_panic.
Print Assumptions C53_odd_one_sided_refuted.
