(* Hxm_props.v - C54: HxC .mfm files. *)
From Verif Require Import Base Base_lemmas BitRing_proofs Mfm_spec Bs_general_proofs
  Chs_model BitRing_model Mfm_model Types_model System34_model MetaSector_model BitStream_model DiskImage_model DiskImage_spec DiskImage_proofs
  Format_model Raw_model Format2_proofs TreeMap_proofs Pce_spec Pce3_proofs F86_model F86_spec F86_proofs F86b_proofs Layout_spec Layout_proofs Tc_proofs
  Hxc_model Hxc_spec Hxc_proofs.
From Coq Require Import Lia.

Lemma bit7 x : (x < 256)%N -> negb (N.land x 0x80 =? 0)%N = N.testbit x 7.
Proof.
  intros H. assert (E : forallb (fun x => Bool.eqb (negb (N.land x 0x80 =? 0)%N) (N.testbit x 7)) (map N.of_nat (seq 0 256)) = true) by (vm_compute; reflexivity).
  rewrite forallb_forall in E. apply Bool.eqb_prop. apply E. apply in_map_iff. exists (N.to_nat x). split; [apply N2Nat.id|apply in_seq; lia].
Qed.
Lemma hxm_load_eq rnd d file : 19 <= length file -> map (byte_at file) (seq 0 6) = [0x48; 0x58; 0x43; 0x4D; 0x46; 0x4D]%N -> (byte_at file 14 < 256)%N ->
  hxm_load_image rnd d file =
    let! ts := hxm_table (hxm_advanced file) (hxm_count file) (skipn (N.to_nat (le32_at file 15)) file) in
    let! d := hxm_tracks rnd file (hxm_advanced file) ts d in Ok (with_geom d (mkCh (le16_at file 7) (byte_at file 9))).
Proof.
  intros L M B. unfold hxm_load_image. rewrite hxm_header_of. replace (19 <=? length file) with true by (symmetry; apply Nat.leb_le; exact L).
  rewrite M. cbn [combine forallb fst snd]. rewrite !N.eqb_refl. cbn [andb]. cbn [obind hx_tracks hx_heads hx_if hx_list].
  rewrite bit7 by exact B. reflexivity.
Qed.
Lemma hxm_entries file : hxm_table (hxm_advanced file) (hxm_count file) (skipn (N.to_nat (le32_at file 15)) file) =
  if (hxm_count file =? 0) || (hxm_entry file (hxm_count file) <=? length file)
  then Ok (map (fun k => mkHxmT (hxm_cyl file k) (hxm_side file k) (hxm_size file k) (hxm_offset file k)) (seq 0 (hxm_count file)))
  else Err FormatParseError.
Proof.
  destruct (hxm_table_pos (hxm_advanced file) file (hxm_count file) (N.to_nat (le32_at file 15))) as [A B].
  destruct (Nat.eqb_spec (hxm_count file) 0) as [E|E]; cbn [orb]; [rewrite E; reflexivity|].
  destruct (Nat.leb_spec (hxm_entry file (hxm_count file)) (length file)) as [C|C]; [exact (A C)|]. apply B; [exact C|lia].
Qed.
Lemma bytes_ok_at file p : bytes_ok file = true -> (byte_at file p < 256)%N.
Proof.
  intros H. unfold byte_at. destruct (Nat.lt_ge_cases p (length file)) as [L|L]; [|rewrite nth_overflow by exact L; lia].
  apply bytes_ok_Forall in H. rewrite Forall_forall in H. apply H. apply nth_In. exact L.
Qed.
(* ---- C54 ---- *)
(* the tracks of each side, in the order of the list *)
Theorem C54_load : forall rnd file, bytes_ok file = true -> hxm_file file ->
  (forall i, i < hxm_count file -> exists ch t, bt_new (rnd_bit rnd) ch (hxm_data file i) None (hxm_ct file i) false = Ok t) ->
  exists d' s', hxm_load_image rnd di_default file = Ok d' /\ maps_valid d' /\ shows d' s' /\
    di_geom d' = mkCh (le16_at file 7) (byte_at file 9) /\
    length (fst s') + length (snd s') = hxm_count file /\
    forall i, i < hxm_count file -> exists t, nth_error (side s' (hxm_side file i)) (hxm_rank file i) = Some (TBit t) /\
      bt_ch t = mkCh (hxm_cyl file i mod 256) (hxm_side file i) /\ cells t = hxm_cells file i.
Proof.
  intros rnd file Hb V Hscan. set (n := hxm_count file) in *.
  rewrite hxm_load_eq by (try apply V; apply bytes_ok_at; exact Hb). rewrite hxm_entries. fold n.
  assert (Et : (n =? 0) || (hxm_entry file n <=? length file) = true).
  { destruct (Nat.eqb_spec n 0) as [E|E]; [reflexivity|]. apply Nat.leb_le. pose proof (hm_table _ V (n - 1) ltac:(fold n; lia)) as H. unfold hxm_entry in *.
    replace n with (S (n - 1)) by lia. lia. }
  rewrite Et. cbn [obind]. rewrite hxm_tracks_jobs by (intros k Hk; apply (hm_inside _ V); fold n; lia).
  set (track i := match job_track rnd (hxm_job file i) with Ok t => t | _ => mkTrack (mkCh 0 0) (mkMfm (ring_from []) (ring_from []) (ring_from []) false (ring_from []) 0 0 [] []) meta_default false end).
  assert (HT : forall i, i < n -> job_track rnd (hxm_job file i) = Ok (track i)).
  { intros i Hi. unfold track. destruct (Hscan i Hi) as (ch & t & E). unfold job_track, hxm_job. cbn [aj_ch aj_data aj_weak aj_ct aj_detect].
    apply new_any_ch with (ch' := mkCh (as_u8 (hxm_cyl file i)) (hxm_side file i)) in E. rewrite E. reflexivity. }
  clearbody track. set (ts := map track (seq 0 n)).
  assert (F : Forall2 (fun j t => (ch_h (aj_ch j) < 2)%N /\ job_track rnd j = Ok t) (map (hxm_job file) (seq 0 n)) ts).
  { unfold ts. assert (Hbd : forall i, In i (seq 0 n) -> i < n) by (intros i Hi; apply in_seq in Hi; lia). revert Hbd. generalize (seq 0 n). induction l as [|i l IH]; intros Hbd; constructor.
    - split; [|apply HT, Hbd; left; reflexivity]. cbn [hxm_job aj_ch ch_h]. apply (hm_side _ V), Hbd. left; reflexivity.
    - apply IH. intros; apply Hbd; right; assumption. }
  destruct (add_jobs_ok rnd _ _ di_default ([], []) F (empty_wf di_default eq_refl eq_refl eq_refl) ltac:(split; [reflexivity|left; reflexivity])) as (d1 & E & W & _ & _ & _).
  rewrite E. cbn [obind].
  assert (Hch : forall i, i < n -> bt_ch (track i) = mkCh (hxm_cyl file i mod 256) (hxm_side file i) /\ cells (track i) = hxm_cells file i).
  { intros i Hi. specialize (HT i Hi). unfold job_track, hxm_job in HT. cbn [aj_ch aj_data aj_weak aj_ct aj_detect] in HT.
    destruct (new_plain _ _ _ _ _ HT) as [C1 C2]; [|split; [exact C1|exact C2]].
    intros Ez. pose proof HT as HT2. rewrite Ez in HT2. apply new_nonempty in HT2. unfold hxm_ct in *. destruct (hxm_advanced file) eqn:Ea; [|congruence].
    apply (f_equal (@length _)) in Ez. unfold hxm_data, bytes_at in Ez. rewrite firstn_length, skipn_length in Ez. cbn in Ez.
    destruct (hm_inside _ V i Hi) as [Z|Z]; unfold hxm_octets in *; rewrite Ea in *.
    - assert (E0 : (hxm_size file i = 0)%N) by dlia. rewrite E0. reflexivity.
    - assert (E0 : (hxm_size file i = 0)%N) by dlia. rewrite E0. reflexivity. }
  set (d2 := with_geom d1 (mkCh (le16_at file 7) (byte_at file 9))).
  exists d2, (on_head 0 ts, on_head 1 ts). split; [reflexivity|].
  assert (W' : wf d2 (on_head 0 ts, on_head 1 ts)) by exact W.
  split; [apply W'|]. split; [apply wf_shows; exact W'|]. split; [reflexivity|]. cbn [fst snd]. split.
  - unfold on_head, ts. rewrite !map_length. clear - Hch V.
    assert (G : forall l, (forall i, In i l -> i < n) -> length (filter (fun t => ch_h (bt_ch t) =? 0)%N (map track l)) + length (filter (fun t => ch_h (bt_ch t) =? 1)%N (map track l)) = length l).
    { induction l as [|i l IH]; intros Hl; [reflexivity|]. cbn [map filter]. specialize (IH ltac:(intros; apply Hl; right; assumption)).
      assert (Hi : i < n) by (apply Hl; left; reflexivity). rewrite (proj1 (Hch i Hi)). cbn [ch_h]. pose proof (hm_side _ V i Hi) as S2.
      assert (D : hxm_side file i = 0%N \/ hxm_side file i = 1%N) by (clear - S2; lia). destruct D as [-> | ->].
      - change (0 =? 0)%N with true. change (0 =? 1)%N with false. cbn [length]. lia.
      - change (1 =? 0)%N with false. change (1 =? 1)%N with true. cbn [length]. lia. }
    rewrite G by (intros i Hi; apply in_seq in Hi; lia). apply seq_length.
  - intros i Hi. exists (track i). split; [|apply Hch; exact Hi].
    assert (Hn : nth_error ts i = Some (track i)) by (unfold ts; rewrite nth_error_map, (nth_error_nth' _ 0) by (rewrite seq_length; exact Hi); rewrite seq_nth by exact Hi; reflexivity).
    assert (Hr : hxm_rank file i = length (filter (fun t => ch_h (bt_ch t) =? hxm_side file i)%N (firstn i ts))).
    { unfold hxm_rank, ts. rewrite firstn_map.
      replace (firstn i (seq 0 n)) with (seq 0 i) by (replace n with (i + (n - i)) by lia; rewrite seq_app, firstn_app, seq_length, Nat.sub_diag, firstn_O, app_nil_r; symmetry; apply firstn_all2; rewrite seq_length; lia).
      assert (Hl : forall k, In k (seq 0 i) -> k < n) by (intros k Hk; apply in_seq in Hk; lia). revert Hl. generalize (seq 0 i). clear - Hch.
      induction l as [|k l IH]; intros Hl; [reflexivity|]. cbn [map filter]. rewrite (proj1 (Hch k (Hl k (or_introl eq_refl)))). cbn [ch_h].
      destruct (hxm_side file k =? hxm_side file i)%N; cbn [length]; [f_equal|]; apply IH; intros; apply Hl; right; assumption. }
    pose proof (filter_rank (fun t => ch_h (bt_ch t) =? hxm_side file i)%N ts i (track i) Hn) as R.
    rewrite <- Hr in R. specialize (R ltac:(rewrite (proj1 (Hch i Hi)); apply N.eqb_refl)).
    pose proof (hm_side _ V i Hi) as S2. assert (D : hxm_side file i = 0%N \/ hxm_side file i = 1%N) by (clear - S2; lia).
    destruct D as [D|D]; rewrite D in *; cbn [side fst snd]; unfold on_head; rewrite nth_error_map, R; reflexivity.
Qed.
(* When the entries of each side are listed for cylinders 0, 1, 2, ... the tracks are on their cylinders *)
Theorem C54_in_order : forall rnd file, bytes_ok file = true -> hxm_file file ->
  (forall i, i < hxm_count file -> exists ch t, bt_new (rnd_bit rnd) ch (hxm_data file i) None (hxm_ct file i) false = Ok t) ->
  (forall i, i < hxm_count file -> N.of_nat (hxm_rank file i) = hxm_cyl file i) ->
  exists d' s', hxm_load_image rnd di_default file = Ok d' /\ shows d' s' /\
    forall i, i < hxm_count file -> exists t, nth_error (side s' (hxm_side file i)) (N.to_nat (hxm_cyl file i)) = Some (TBit t) /\ cells t = hxm_cells file i.
Proof.
  intros rnd file Hb V Hscan Ho. destruct (C54_load rnd file Hb V Hscan) as (d' & s' & A & _ & B & _ & _ & C). exists d', s'. split; [exact A|]. split; [exact B|].
  intros i Hi. destruct (C i Hi) as (t & T & _ & H). exists t. rewrite <- (Ho i Hi), Nat2N.id. split; assumption.
Qed.
(* Which files are loaded *)
Lemma hxm_read_ok rnd file adv : forall ts d d', hxm_tracks rnd file adv ts d = Ok d' ->
  Forall (fun t => (ht_side t < 2)%N /\ let size := if adv then ((ht_size t + 7) / 8)%N else ht_size t in size = 0%N \/ (ht_offset t + size <= N.of_nat (length file))%N) ts.
Proof.
  induction ts as [|t ts IH]; intros d d' E; [constructor|]. cbn [hxm_tracks] in E. cbv zeta in *.
  destruct (read_exact _ _) as [[data r]| |] eqn:Er; cbn [obind] in E; try discriminate.
  destruct (add_track_bitstream _ _ _ _ _ _ _) as [d1 [x| |]] eqn:Ea; cbn [obind] in E; try discriminate. constructor; [|eapply IH; exact E].
  split.
  - unfold add_track_bitstream in Ea. cbn [ch_h] in Ea. destruct (N.leb_spec 2 (ht_side t)) as [H|H]; [discriminate|exact H].
  - unfold read_exact in Er. rewrite skipn_length in Er. destruct (Nat.ltb_spec (length file - N.to_nat (ht_offset t)) (N.to_nat (if adv then ((ht_size t + 7) / 8)%N else ht_size t))) as [H|H]; [discriminate|].
    remember (if adv then ((ht_size t + 7) / 8)%N else ht_size t) as z. clear - H. lia.
Qed.
Theorem C54_accepted : forall rnd d file d', bytes_ok file = true -> hxm_load_image rnd d file = Ok d' -> length file < 19 \/ hxm_file file.
Proof.
  intros rnd d file d' Hb E. destruct (Nat.lt_ge_cases (length file) 19) as [L|L]; [left; exact L|right].
  assert (M : map (byte_at file) (seq 0 6) = [0x48; 0x58; 0x43; 0x4D; 0x46; 0x4D]%N).
  { unfold hxm_load_image in E. rewrite hxm_header_of in E. replace (19 <=? length file) with true in E by (symmetry; apply Nat.leb_le; exact L).
    destruct (forallb _ _) eqn:F; [|discriminate]. apply magic_eq in F; [exact F|reflexivity]. }
  rewrite hxm_load_eq in E by (try assumption; apply bytes_ok_at; exact Hb). rewrite hxm_entries in E.
  destruct ((hxm_count file =? 0) || (hxm_entry file (hxm_count file) <=? length file)) eqn:T; [|discriminate]. cbn [obind] in E.
  destruct (hxm_tracks _ _ _ _ _) as [d1| |] eqn:Et; cbn [obind] in E; try discriminate. apply hxm_read_ok in Et. rewrite Forall_map in Et. rewrite Forall_forall in Et.
  cbn [ht_side ht_size ht_offset] in Et.
  assert (Hin : forall i, i < hxm_count file -> In i (seq 0 (hxm_count file))) by (intros i Hi; apply in_seq; lia).
  constructor; [exact L|exact M| | |].
  - intros i Hi. apply Bool.orb_true_iff in T as [T|T]; [apply Nat.eqb_eq in T; lia|]. apply Nat.leb_le in T. unfold hxm_entry in *.
    assert (S i * hxm_stride file <= hxm_count file * hxm_stride file) by (apply Nat.mul_le_mono_r; lia). lia.
  - intros i Hi. apply (Et i (Hin i Hi)).
  - intros i Hi. apply (Et i (Hin i Hi)).
Qed.
(* Finding: the cylinder numbers of the list are not used, tracks listed in another order are exchanged *)
Definition demo_hxm : list N :=
  [0x48; 0x58; 0x43; 0x4D; 0x46; 0x4D; 0; 2; 0; 1; 0x2C; 1; 0xFA; 0; 7; 19; 0; 0; 0]%N ++
  [1; 0; 0; 2; 0; 0; 0; 41; 0; 0; 0]%N ++ [0; 0; 0; 2; 0; 0; 0; 43; 0; 0; 0]%N ++ [0xAA; 0x80; 0xAA; 0x0F]%N.
Lemma two i : i < 2 -> i = 0 \/ i = 1. Proof. lia. Qed.
Lemma demo_hxm_file : hxm_file demo_hxm.
Proof.
  constructor; [apply Nat.leb_le; vm_compute; reflexivity|vm_compute; reflexivity| | |]; intros i Hi; change (hxm_count demo_hxm) with 2 in Hi; apply two in Hi as [-> | ->].
  1,2: apply Nat.leb_le; vm_compute; reflexivity. 1,2: right; apply N.leb_le; vm_compute; reflexivity. all: vm_compute; reflexivity.
Qed.
Lemma demo_hxm_scans rnd : forall i, i < hxm_count demo_hxm -> exists ch t, bt_new (rnd_bit rnd) ch (hxm_data demo_hxm i) None (hxm_ct demo_hxm i) false = Ok t.
Proof.
  intros i Hi. change (hxm_count demo_hxm) with 2 in Hi. exists (mkCh 0 0). change (hxm_ct demo_hxm i) with (@None nat). apply two in Hi as [-> | ->].
  - assert (E : hxm_data demo_hxm 0 = [0xAA; 0x80]%N) by (vm_compute; reflexivity). rewrite E. eexists. reflexivity.
  - assert (E : hxm_data demo_hxm 1 = [0xAA; 0x0F]%N) by (vm_compute; reflexivity). rewrite E. eexists. reflexivity.
Qed.
Lemma demo_hxm_ok : bytes_ok demo_hxm = true. Proof. apply bytes_ok_Forall. repeat constructor. Qed.
Theorem C54_order_refuted : exists file, bytes_ok file = true /\ hxm_file file /\ hxm_cyl file 0 = 1%N /\ hxm_cyl file 1 = 0%N /\ hxm_side file 0 = 0%N /\ hxm_side file 1 = 0%N /\
  hxm_cells file 0 <> hxm_cells file 1 /\
  forall rnd, exists d' s' t, hxm_load_image rnd di_default file = Ok d' /\ shows d' s' /\
    nth_error (fst s') 0 = Some (TBit t) /\ cells t = hxm_cells file 0.
Proof.
  exists demo_hxm. split; [exact demo_hxm_ok|]. split; [exact demo_hxm_file|]. split; [vm_compute; reflexivity|]. split; [vm_compute; reflexivity|]. split; [vm_compute; reflexivity|]. split; [vm_compute; reflexivity|].
  split; [vm_compute; discriminate|]. intros rnd. destruct (C54_load rnd demo_hxm demo_hxm_ok demo_hxm_file (demo_hxm_scans rnd)) as (d' & s' & A & _ & B & _ & _ & C).
  destruct (C 0 ltac:(change (hxm_count demo_hxm) with 2; lia)) as (t & T & _ & H). exists d', s', t. split; [exact A|]. split; [exact B|]. split; [exact T|exact H].
Qed.
(* Finding: anything shorter than a header is a file without tracks for the parser *)
Theorem C54_short_refuted : forall rnd d file, length file < 19 -> hxm_load_image rnd d file = Ok (with_geom d (mkCh 0 0)).
Proof.
  intros rnd d file H. unfold hxm_load_image. rewrite hxm_header_of. replace (19 <=? length file) with false by (symmetry; apply Nat.leb_gt; exact H). reflexivity.
Qed.
Example C54_demo : forall rnd, exists d' s' t, hxm_load_image rnd di_default demo_hxm = Ok d' /\ shows d' s' /\
  nth_error (fst s') 1 = Some (TBit t) /\ cells t = flat_map byte_bits [0xAA; 0x0F]%N.
Proof.
  intros rnd. destruct (C54_load rnd demo_hxm demo_hxm_ok demo_hxm_file (demo_hxm_scans rnd)) as (d' & s' & A & _ & B & _ & _ & C).
  destruct (C 1 ltac:(change (hxm_count demo_hxm) with 2; lia)) as (t & T & _ & H). exists d', s', t. split; [exact A|]. split; [exact B|]. split; [exact T|]. rewrite H. vm_compute. reflexivity.
Qed.

Print Assumptions C54_load.
Print Assumptions C54_in_order.
Print Assumptions C54_accepted.
Print Assumptions C54_order_refuted.
Print Assumptions C54_short_refuted.
