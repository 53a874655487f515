(* MetaSector_props.v - C15, C16, C17, and the MetaSector parts of C26, C27, C36 and C43. *)
From Verif Require Import Base Base_lemmas Chs_model Chs_proofs Types_model MetaSector_model MetaSector_spec MetaSector_proofs.
From Coq Require Import Permutation.

(* ---- example track: three 128-byte sectors, the second deleted, the third without data mark ---- *)
Definition ex_id (s : N) : DiskChsn := mkChsn (mkChs 5 1 s) 0.
Definition ex_sec (s : N) (del nd : bool) : MetaSector :=
  mkMS (ex_id s) false false del nd (repeat s 128) (mask_empty 128) (mask_empty 128).
Definition ex_track : MetaSectorTrack := mkMST (mkCh 5 1) [ex_sec 1 false false; ex_sec 2 true false; ex_sec 3 false true].
Definition ex_q (s : N) : DiskChsnQuery := mkQuery (Some 5%N) (Some 1%N) s None.
Lemma ex_wf : wf_track ex_track. Proof. repeat constructor. Qed.
Lemma ex_only s i : (s, i) = (1%N, 0) \/ (s, i) = (2%N, 1) \/ (s, i) = (3%N, 2) -> only_match (ids_of ex_track) (ex_q s) i.
Proof. intros H. apply positions_only. destruct H as [H|[H|H]]; injection H as -> ->; vm_compute; reflexivity. Qed.

(* C15.  For every history of write requests (any queries, data lengths, deleted flags) on a track whose
   sectors have the size their ids say: no write panics, the ids and all attributes other than data and
   deleted mark stay, and reading any sector with data and without weak bits returns the data and deleted
   mark of the last request that named it alone with data of its size, or the initial ones if there is
   none. *)
Theorem C15_read_last_write : forall (t : MetaSectorTrack) (h : list wreq), wf_track t ->
  exists t', run_writes t h = Ok t' /\ ids_of t' = ids_of t /\
  forall i s q rnd, nth_error (mt_sectors t) i = Some s -> clean s -> first_match (ids_of t) q i ->
    exists r, mt_read_sector rnd t' q DataOnly = Ok r /\
      rs_not_found r = false /\ rs_no_dam r = false /\ rs_id r = Some (ms_id s) /\
      rs_address_crc_error r = ms_address_error s /\ rs_data_crc_error r = ms_data_error s /\
      (forall w, last_such (effective t i) h w -> read_data_of r = Ok (w_data w) /\ rs_deleted r = w_deleted w) /\
      (Forall (fun w => ~ effective t i w) h -> read_data_of r = Ok (ms_data s) /\ rs_deleted r = ms_deleted s).
Proof.
  intros t h WF. destruct (run_writes_spec h t WF) as (t' & E & F & H). exists t'. split; [exact E|]. split; [apply frame_ids; auto|].
  intros i s q rnd Hs C FM. destruct (H i s Hs) as (s' & Hs' & L & N0).
  destruct (frame_nth t t' i s' F Hs') as (s0 & Hs0 & EF). rewrite Hs in Hs0. injection Hs0 as <-.
  assert (C' : clean s').
  { unfold fixed_part in EF. injection EF as _ _ _ E4 E5 E6 _. destruct C as (A & B & D). unfold clean. rewrite E4, E5, E6. auto. }
  assert (FM' : first_match (ids_of t') q i) by (rewrite (frame_ids _ _ F); auto).
  destruct (read_found rnd t' q i s' FM' Hs' C') as (r & Er & R1 & R2 & R3 & R4 & R5 & R6).
  exists r. split; [exact Er|]. unfold fixed_part in EF. injection EF as E1 E2 E3 _ _ _ _.
  assert (ND : rs_no_dam r = false).
  { cbn [mt_read_sector] in Er. destruct (sm_idx _); [injection Er as <-; reflexivity|].
    destruct (oindex (mt_sectors t') n) as [x| |]; cbn [obind] in Er; try discriminate.
    destruct (ms_read_data rnd x); cbn [obind] in Er; try discriminate. injection Er as <-. reflexivity. }
  rewrite R2, R5, R6, E1, E2, E3. repeat split; auto.
  - destruct (L w H0) as [-> _] in R3. auto.
  - destruct (L w H0) as [_ ->] in R4. auto.
  - rewrite (N0 H0) in R3. auto.
  - rewrite (N0 H0) in R4. auto.
Qed.
Example C15_read_last_write_ex :
  let h := [mkW (ex_q 1) (repeat 7%N 128) true; mkW (ex_q 2) (repeat 8%N 128) false; mkW (ex_q 1) (repeat 9%N 64) false] in
  wf_track ex_track /\ last_such (effective ex_track 0) h (mkW (ex_q 1) (repeat 7%N 128) true) /\
  clean (ex_sec 1 false false) /\ first_match (ids_of ex_track) (ex_q 1) 0 /\
  exists t', run_writes ex_track h = Ok t' /\ exists r, mt_read_sector (fun _ => 0%N) t' (ex_q 1) DataOnly = Ok r /\
     read_data_of r = Ok (repeat 7%N 128).
Proof.
  cbn zeta. split; [exact ex_wf|]. split.
  - exists [], [mkW (ex_q 2) (repeat 8%N 128) false; mkW (ex_q 1) (repeat 9%N 64) false]. split; [reflexivity|]. split.
    + split; [apply ex_only; auto|]. exists (ex_sec 1 false false). repeat split.
    + constructor; [|constructor; [|constructor]].
      * intros [H _]. apply positions_only in H. vm_compute in H. discriminate.
      * intros [_ (s & Hs & _ & Hl)]. injection Hs as <-. vm_compute in Hl. discriminate.
  - split; [|split].
    + repeat split; cbn [ms_weak ex_sec mask_empty mm_mask ms_hole]; apply Forall_forall; intros x Hx; apply repeat_spec in Hx; auto.
    + apply (positions_first _ _ 0 []). vm_compute. reflexivity.
    + eexists. split; [vm_compute; reflexivity|]. eexists. split; vm_compute; reflexivity.
Qed.

(* Exactly what a single write request does, by the number of sectors it names. *)
Theorem C15_write_outcome : forall t q d del, wf_track t ->
  (absent (ids_of t) q /\ exists r, mt_write_sector t q d del = Ok (t, 0%N, r)) \/
  (exists i s, only_match (ids_of t) q i /\ nth_error (mt_sectors t) i = Some s /\
     (length d <> length (ms_data s) -> mt_write_sector t q d del = Err ParameterError) /\
     (length d = length (ms_data s) -> exists t' r, mt_write_sector t q d del = Ok (t', 1%N, r) /\
         wr_no_dam r = ms_no_dam s /\ wr_address_crc_error r = ms_address_error s /\ wr_not_found r = false /\
         (~ writable s -> t' = t) /\
         (writable s -> exists s', nth_error (mt_sectors t') i = Some s' /\ ms_data s' = d /\ ms_deleted s' = del /\
            fixed_part s' = fixed_part s /\
            forall j, j <> i -> nth_error (mt_sectors t') j = nth_error (mt_sectors t) j))) \/
  ((exists i j id id', i <> j /\ nth_error (ids_of t) i = Some id /\ nth_error (ids_of t) j = Some id' /\ agrees q id /\ agrees q id') /\
   mt_write_sector t q d del = Err UniqueIdError).
Proof.
  intros t q d del WF. unfold mt_write_sector. rewrite sm_idx_eq.
  destruct (positions q 0 (ids_of t)) as [|i [|j l]] eqn:Ep.
  - left. split; [apply positions_nil; auto|]. eauto.
  - right; left. pose proof (proj1 (positions_only _ _ _) Ep) as OM. pose proof OM as [(id & Hid & _) _].
    unfold ids_of in Hid. rewrite nth_error_map in Hid. destruct (nth_error (mt_sectors t) i) as [s|] eqn:Es; [|discriminate].
    exists i, s. split; [auto|]. split; [exact Es|]. unfold oindex. rewrite Es. cbn [obind].
    unfold wf_track in WF. rewrite Forall_forall in WF. pose proof (WF s (nth_error_In _ _ Es)) as W. unfold wf_sector in W. rewrite <- W.
    split.
    + intros Hl. destruct (N.eqb_spec (N.of_nat (length (ms_data s))) (N.of_nat (length d))); [lia|]. reflexivity.
    + intros Hl. rewrite Hl, N.eqb_refl. cbn [negb]. rewrite Nat.eqb_refl. cbn [negb].
      destruct (ms_no_dam s) eqn:A, (ms_address_error s) eqn:B; cbn [orb obind]; do 2 eexists; (split; [reflexivity|]);
        cbn [wr_no_dam wr_address_crc_error wr_not_found]; repeat (split; [reflexivity|]); unfold writable; rewrite A, B;
        (split; [intros HN; rewrite ?(upd_same _ _ _ Es); try (destruct t; reflexivity); exfalso; apply HN; auto|
                 intros [? ?]; try discriminate]).
      eexists. split; [cbn [mt_sectors]; apply nth_error_upd_same; apply nth_error_Some; congruence|].
      cbn [ms_data ms_deleted mt_sectors]. split; [reflexivity|]. split; [reflexivity|]. split.
      * unfold fixed_part. cbn [ms_id ms_address_error ms_data_error ms_no_dam ms_weak ms_hole ms_data]. congruence.
      * intros j Hj. apply nth_error_upd_other; auto.
  - right; right. split; [|reflexivity].
    assert (Hi : In i (positions q 0 (ids_of t))) by (rewrite Ep; left; auto).
    assert (Hj : In j (positions q 0 (ids_of t))) by (rewrite Ep; right; left; auto).
    apply in_positions in Hi as (_ & id & Hi & Ai). apply in_positions in Hj as (_ & id' & Hj & Aj).
    rewrite Nat.sub_0_r in Hi, Hj. exists i, j, id, id'. repeat split; auto; try apply Ai; try apply Aj.
    pose proof (positions_nodup q 0 (ids_of t)) as ND. rewrite Ep in ND. inversion ND; subst. intros ->. apply H1. left; auto.
Qed.
Example C15_write_outcome_ex :
  only_match (ids_of ex_track) (ex_q 2) 1 /\ nth_error (mt_sectors ex_track) 1 = Some (ex_sec 2 true false) /\
  writable (ex_sec 2 true false) /\ ~ writable (ex_sec 3 false true) /\
  mt_write_sector ex_track (ex_q 2) [1%N] false = Err ParameterError /\
  mt_write_sector (mkMST (mkCh 0 0) [ex_sec 1 false false; ex_sec 1 false false]) (ex_q 1) (repeat 0%N 128) false = Err UniqueIdError.
Proof. repeat split; try (apply ex_only; auto); try (intros [H _]; discriminate H). Qed.

(* Without the size condition the claim is false: add_sector accepts data of any length (the IMD
   parser passes an empty buffer for "data unavailable" records) and a later write of the full
   sector then panics in copy_from_slice. *)
Theorem C15_short_sector_refuted : exists t p t' q d,
  mt_add_sector t p = Ok t' /\ only_match (ids_of t') q 0 /\
  N.of_nat (length d) = n_to_bytes (chsn_n (as_id p)) /\ mt_write_sector t' q d false = Panic.
Proof.
  exists (mkMST (mkCh 0 0) []), (mkAddSector (ex_id 1) [] None None (mkAttr false false false false) false).
  eexists. exists (ex_q 1), (repeat 0%N 128). split; [reflexivity|]. split; [|split; [reflexivity|vm_compute; reflexivity]].
  apply positions_only. vm_compute. reflexivity.
Qed.

(* A sector with weak bits or holes: a bit read differs from the stored bit only where a mask is set.
   Stated per byte and bit, for masks that cover the data. *)
Theorem C15_weak_read : forall rnd t q i s r d,
  nth_error (mt_sectors t) i = Some s -> first_match (ids_of t) q i -> ms_no_dam s = false ->
  mt_read_sector rnd t q DataOnly = Ok r -> read_data_of r = Ok d ->
  length d = length (ms_data s) /\
  forall k b x v w hm, nth_error (ms_data s) k = Some x -> nth_error d k = Some v ->
    nth_error (mm_mask (ms_weak s)) k = Some w -> nth_error (mm_mask (ms_hole s)) k = Some hm ->
    N.testbit w b = false -> N.testbit hm b = false -> N.testbit v b = N.testbit x b.
Proof.
  intros rnd t q i s r d Hs FM ND Er Ed. destruct (first_match_positions q _ i FM) as (l & E).
  cbn [mt_read_sector] in Er. rewrite sm_idx_eq, E in Er. unfold oindex in Er. rewrite Hs in Er. cbn [obind] in Er.
  unfold ms_read_data in Er. rewrite ND in Er. destruct (blend _ _ _ _) as [buf| |] eqn:Eb; cbn [obind] in Er; try discriminate.
  injection Er as <-. apply blend_spec in Eb as [Hl Hb]. unfold read_data_of in Ed. cbn [rs_range rs_buf] in Ed.
  rewrite Hl, Nat.ltb_irrefl in Ed. cbn [Nat.ltb Nat.leb orb] in Ed. unfold slice in Ed. rewrite Nat.sub_0_r, <- Hl in Ed. cbn [skipn] in Ed.
  rewrite firstn_all in Ed. injection Ed as <-. split; [exact Hl|].
  intros k b x v w hm Hx Hv Hw Hh Bw Bh. rewrite (Hb k b x (N.lor w hm) v Hx); auto.
  - rewrite N.lor_spec, Bw, Bh. reflexivity.
  - rewrite nth_error_map. assert (X : nth_error (combine (mm_mask (ms_weak s)) (mm_mask (ms_hole s))) k = Some (w, hm)).
    { clear - Hw Hh. revert k Hw Hh. generalize (mm_mask (ms_weak s)) (mm_mask (ms_hole s)).
      induction l as [|a l IH]; intros [|c m] [|k] Hw Hh; cbn in *; try discriminate; [congruence|auto]. }
    rewrite X. reflexivity.
Qed.
Example C15_weak_read_ex :
  let s := mkMS (ex_id 1) false false false false [0xF0; 0x0F]%N (mask_from [0; 3]%N) (mask_empty 2) in
  let t := mkMST (mkCh 5 1) [s] in
  first_match (ids_of t) (ex_q 1) 0 /\
  exists r, mt_read_sector (fun _ => 0xAA%N) t (ex_q 1) DataOnly = Ok r /\ read_data_of r = Ok [0xF0; 0x0E]%N.
Proof. cbn zeta. split; [apply (positions_first _ _ 0 []); vm_compute; reflexivity|]. eexists. split; vm_compute; reflexivity. Qed.

(* Reading the data of a sector without data mark: the result claims a data range the buffer does not
   have, so taking its data panics. *)
Theorem C15_no_dam_data_refuted : exists t q r, wf_track t /\ only_match (ids_of t) q 2 /\
  mt_read_sector (fun _ => 0%N) t q DataOnly = Ok r /\ rs_no_dam r = false /\ read_data_of r = Panic.
Proof.
  exists ex_track, (ex_q 3). eexists. split; [exact ex_wf|]. split; [apply ex_only; auto|].
  split; [vm_compute; reflexivity|]. split; vm_compute; reflexivity.
Qed.

(* C16.  Reading or scanning an id that is not on the track. *)
Theorem C16_read_absent : forall rnd t q, absent (ids_of t) q ->
  exists r, mt_read_sector rnd t q DataOnly = Ok r /\ rs_not_found r = true /\ rs_id r = None /\ rs_buf r = [] /\
    (rs_wrong_cylinder r = true <-> other_cylinder (ids_of t) q) /\
    (rs_bad_cylinder r = true <-> cylinder_ff (ids_of t)) /\
    (rs_wrong_head r = true <-> other_head (ids_of t) q).
Proof. exact read_absent. Qed.
Example C16_read_absent_ex : absent (ids_of ex_track) (mkQuery (Some 6%N) None 1%N None) /\
  other_cylinder (ids_of ex_track) (mkQuery (Some 6%N) None 1%N None).
Proof.
  split; [apply positions_nil; vm_compute; reflexivity|]. exists (ex_id 1), 6%N. split; [left; reflexivity|]. split; [reflexivity|discriminate].
Qed.
Theorem C16_scan_absent : forall t q, absent (ids_of t) q ->
  exists r, mt_scan_sector t q = Ok r /\ sc_not_found r = true /\
    (sc_wrong_cylinder r = true <-> other_cylinder (ids_of t) q) /\
    (sc_bad_cylinder r = true <-> cylinder_ff (ids_of t)) /\
    (sc_wrong_head r = true <-> other_head (ids_of t) q).
Proof. exact scan_absent. Qed.
Theorem C16_scan_found : forall t q i s, first_match (ids_of t) q i -> nth_error (mt_sectors t) i = Some s ->
  exists r, mt_scan_sector t q = Ok r /\ sc_not_found r = false /\ sc_deleted r = ms_deleted s /\
    sc_address_error r = ms_address_error s /\ sc_data_error r = ms_data_error s.
Proof. exact scan_found. Qed.
Example C16_scan_found_ex : first_match (ids_of ex_track) (ex_q 2) 1.
Proof. apply (positions_first _ _ 1 []). vm_compute. reflexivity. Qed.
(* Writing an absent id changes nothing (not even the write counter) and sets the mismatch flags, but
   the result never says not_found (metasector.rs:444-454 hard-codes false): the missing part. *)
Theorem C16_write_absent : forall t q d del, absent (ids_of t) q ->
  exists r, mt_write_sector t q d del = Ok (t, 0%N, r) /\ wr_not_found r = false /\
    (wr_wrong_cylinder r = true <-> other_cylinder (ids_of t) q) /\
    (wr_bad_cylinder r = true <-> cylinder_ff (ids_of t)) /\
    (wr_wrong_head r = true <-> other_head (ids_of t) q).
Proof. exact write_absent. Qed.
Theorem C16_write_not_found_refuted : exists t q d r, absent (ids_of t) q /\
  mt_write_sector t q d false = Ok (t, 0%N, r) /\ wr_not_found r = false.
Proof.
  exists ex_track, (ex_q 9), (repeat 0%N 128). eexists. split; [apply positions_nil; vm_compute; reflexivity|].
  split; vm_compute; reflexivity.
Qed.

(* C17.  Adding a sector with a new id, or any sector not flagged as an alternate copy, keeps all
   sectors in order and appends exactly the given one. *)
Theorem C17_add_new : forall t p, as_alternate p = false \/ ~ In (as_id p) (ids_of t) ->
  mt_add_sector t p = Ok (mkMST (mt_ch t) (mt_sectors t ++ [sector_of p])).
Proof. exact add_new. Qed.
(* ... and the sector is then readable: with no masks, the query naming it alone returns its data. *)
Theorem C17_add_then_read : forall rnd t p q, as_alternate p = false \/ ~ In (as_id p) (ids_of t) ->
  as_weak p = None -> as_hole p = None -> at_no_dam (as_attr p) = false -> agrees q (as_id p) -> absent (ids_of t) q ->
  exists t' r, mt_add_sector t p = Ok t' /\ mt_read_sector rnd t' q DataOnly = Ok r /\ rs_not_found r = false /\
    rs_id r = Some (as_id p) /\ read_data_of r = Ok (as_data p) /\ rs_deleted r = at_deleted (as_attr p) /\
    rs_address_crc_error r = at_address_error (as_attr p) /\ rs_data_crc_error r = at_data_error (as_attr p).
Proof.
  intros rnd t p q Ha Hw Hh Hd Hq Habs. eexists. assert (E := add_new t p Ha).
  assert (Hs : nth_error (mt_sectors t ++ [sector_of p]) (length (mt_sectors t)) = Some (sector_of p))
    by (rewrite nth_error_app2, Nat.sub_diag by lia; reflexivity).
  assert (C : clean (sector_of p)).
  { unfold clean, sector_of. rewrite Hw, Hh. cbn [ms_no_dam ms_weak ms_hole mask_empty mm_mask]. split; auto.
    split; apply Forall_forall; intros x Hx; apply repeat_spec in Hx; auto. }
  destruct (read_found rnd (mkMST (mt_ch t) (mt_sectors t ++ [sector_of p])) q (length (mt_sectors t)) (sector_of p)) as (r & Er & R1 & R2 & R3 & R4 & R5 & R6); auto.
  - split.
    + exists (as_id p). split; auto. unfold ids_of. cbn [mt_sectors]. rewrite nth_error_map, Hs. reflexivity.
    + intros j id Hj Hn. apply Habs. unfold ids_of in *. cbn [mt_sectors] in Hn. rewrite map_app, nth_error_app1 in Hn by (rewrite map_length; lia).
      eapply nth_error_In; eauto.
  - exists r. split; [exact E|]. split; [exact Er|]. auto 10.
Qed.
Example C17_add_then_read_ex :
  let p := mkAddSector (ex_id 4) (repeat 1%N 128) None None (mkAttr false false false false) true in
  ~ In (as_id p) (ids_of ex_track) /\ absent (ids_of ex_track) (ex_q 4) /\ agrees (ex_q 4) (as_id p).
Proof.
  cbn zeta. split; [|split].
  - intros H. vm_compute in H. repeat (destruct H as [H|H]; [discriminate H|]). exact H.
  - apply positions_nil. vm_compute. reflexivity.
  - apply agrees_iff. vm_compute. reflexivity.
Qed.
(* An alternate copy of an existing id: the first sector with that id is selected, and if both copies
   have any data the call panics (the buffer indexed at metasector.rs:316-318 is empty); otherwise the
   copy is dropped and the weak mask keeps its contents.  Copies are never merged. *)
Theorem C17_alternate : forall t p, as_alternate p = true -> In (as_id p) (ids_of t) ->
  exists i s, nth_error (mt_sectors t) i = Some s /\ ms_id s = as_id p /\
    (forall j s', j < i -> nth_error (mt_sectors t) j = Some s' -> ms_id s' <> as_id p) /\
    (as_data p <> [] -> ms_data s <> [] -> mt_add_sector t p = Panic) /\
    (as_data p = [] \/ ms_data s = [] -> exists wm, mt_add_sector t p = Ok (mkMST (mt_ch t) (upd (mt_sectors t) i (mkMS (ms_id s) (ms_address_error s)
          (ms_data_error s) (ms_deleted s) (ms_no_dam s) (ms_data s) wm (ms_hole s)))) /\ mm_mask wm = mm_mask (ms_weak s)).
Proof. exact add_alternate. Qed.
Theorem C17_alternate_panics_refuted : exists t p, wf_track t /\ as_alternate p = true /\ In (as_id p) (ids_of t) /\
  N.of_nat (length (as_data p)) = n_to_bytes (chsn_n (as_id p)) /\ mt_add_sector t p = Panic.
Proof.
  exists ex_track, (mkAddSector (ex_id 1) (repeat 1%N 128) None None (mkAttr false false false false) true).
  split; [exact ex_wf|]. split; [reflexivity|]. split; [left; reflexivity|]. split; vm_compute; reflexivity.
Qed.

(* C26 (MetaSector tracks).  Analysis of a track of at most 255 sectors reports exactly the data errors,
   address errors and deleted marks present, the number of sectors, and a consistent size exactly when
   all sectors have it. *)
Theorem C26_metasector_analysis : forall t, (length (mt_sectors t) <= 255)%nat ->
  exists a, mt_analysis t = Ok a /\
    (ta_data_error a = true <-> exists s, In s (mt_sectors t) /\ ms_data_error s = true) /\
    (ta_address_error a = true <-> exists s, In s (mt_sectors t) /\ ms_address_error s = true) /\
    (ta_deleted a = true <-> exists s, In s (mt_sectors t) /\ ms_deleted s = true) /\
    ta_sector_ct a = length (mt_sectors t) /\
    (forall n, mt_sectors t <> [] ->
       (ta_consistent_size a = Some n <-> forall id, In id (ids_of t) -> chsn_n id = n)) /\
    (ta_nonconsecutive a = false <->
       forall i id, nth_error (ids_of t) i = Some id -> chsn_s id = (N.of_nat i + 1)%N).
Proof.
  intros t Hl. unfold mt_analysis. rewrite analysis_loop_spec by lia. cbn [obind]. eexists. split; [reflexivity|].
  cbn [ta_data_error ta_address_error ta_deleted ta_sector_ct ta_consistent_size ta_nonconsecutive orb].
  rewrite !existsb_exists. split; [reflexivity|]. split; [reflexivity|]. split; [reflexivity|]. split; [reflexivity|]. split.
  - intros n Hne. rewrite <- (map_map ms_id chsn_n). fold (ids_of t).
    assert (Hne' : ids_of t <> []) by (unfold ids_of; destruct (mt_sectors t); [congruence|discriminate]).
    assert (Hlast : In (last (map chsn_n (ids_of t)) 0%N) (map chsn_n (ids_of t))).
    { destruct (ids_of t) as [|x l _] using rev_ind; [congruence|]. rewrite map_app. cbn [map]. rewrite last_last. apply in_or_app; right; left; auto. }
    destruct (forallb _ _) eqn:Ef; split.
    + intros [= E] id Hin. rewrite forallb_forall in Ef. specialize (Ef (chsn_n id) (in_map _ _ _ Hin)). apply N.eqb_eq in Ef. congruence.
    + intros H. f_equal. apply in_map_iff in Hlast as (id & Hid & Hin). rewrite <- Hid. auto.
    + discriminate.
    + intros H. exfalso. assert (Hall : forallb (N.eqb (last (map chsn_n (ids_of t)) 0%N)) (map chsn_n (ids_of t)) = true).
      { apply forallb_forall. intros x Hx. apply N.eqb_eq. apply in_map_iff in Hx as (id & <- & Hin). apply in_map_iff in Hlast as (id' & <- & Hin').
        rewrite (H id Hin), (H id' Hin'). reflexivity. }
      congruence.
  - fold (ids_of t). rewrite negb_false_iff, numbered_spec. split; intros H i id Hi; rewrite (H i id Hi); lia.
Qed.
Example C26_metasector_analysis_ex : length (mt_sectors ex_track) <= 255. Proof. cbn; lia. Qed.
(* A sector without data mark is never reported. *)
Theorem C26_metasector_no_dam_refuted : exists t s a, In s (mt_sectors t) /\ ms_no_dam s = true /\
  mt_analysis t = Ok a /\ ta_no_dam a = false /\
  forall e, In e (mt_sector_list t) -> at_no_dam (me_attr e) = false.
Proof.
  exists ex_track, (ex_sec 3 false true). eexists. split; [right; right; left; reflexivity|]. split; [reflexivity|].
  split; [vm_compute; reflexivity|]. split; [reflexivity|].
  intros e H. unfold mt_sector_list in H. apply in_map_iff in H as (s & <- & _). reflexivity.
Qed.
(* Analysis panics for every track of 256 or more sectors. *)
Theorem C26_metasector_256_refuted : forall t, 256 <= length (mt_sectors t) -> mt_analysis t = Panic.
Proof. intros t H. unfold mt_analysis. rewrite analysis_loop_panics by lia. reflexivity. Qed.

(* C27 (MetaSector tracks).  If the sector numbers of the track are distinct, next_id of sector i is
   sector i+1, cyclically, with the caller's cylinder and head ... *)
Theorem C27_metasector_next : forall t chs i id, NoDup (map chsn_s (ids_of t)) -> nth_error (ids_of t) i = Some id ->
  chsn_s id = chs_s chs ->
  exists id', nth_error (ids_of t) (S i mod length (ids_of t)) = Some id' /\
    mt_next_id t chs = Some (mkChsn (mkChs (chs_c chs) (chs_h chs) (chsn_s id')) (chsn_n id')).
Proof. exact next_id_spec. Qed.
(* ... so following next_id k times from sector i gives sector i+k, cyclically: the chain visits every
   sector and returns to the start after as many steps as there are sectors. *)
Fixpoint follow (t : MetaSectorTrack) (k : nat) (chs : DiskChs) : option DiskChs :=
  match k with
  | 0 => Some chs
  | S k => match mt_next_id t chs with Some id => follow t k (mkChs (chsn_c id) (chsn_h id) (chsn_s id)) | None => None end
  end.
Theorem C27_metasector_chain : forall t k c h i id, NoDup (map chsn_s (ids_of t)) -> nth_error (ids_of t) i = Some id ->
  exists id', nth_error (ids_of t) ((i + k) mod length (ids_of t)) = Some id' /\
    follow t k (mkChs c h (chsn_s id)) = Some (mkChs c h (chsn_s id')).
Proof.
  intros t k. induction k as [|k IH]; intros c h i id ND Hi.
  - exists id. assert (i < length (ids_of t)) by (apply nth_error_Some; congruence).
    rewrite Nat.add_0_r, Nat.mod_small by auto. auto.
  - cbn [follow]. destruct (next_id_spec t (mkChs c h (chsn_s id)) i id ND Hi eq_refl) as (id1 & H1 & ->).
    destruct (IH c h _ id1 ND H1) as (id' & H' & F). exists id'. split; [|exact F].
    assert (length (ids_of t) <> 0) by (intros E; apply length_zero_iff_nil in E; rewrite E in Hi; destruct i; discriminate).
    rewrite Nat.add_mod_idemp_l in H' by auto. rewrite <- H'. f_equal. f_equal. lia.
Qed.
Example C27_metasector_chain_ex : NoDup (map chsn_s (ids_of ex_track)) /\
  follow ex_track 2 (mkChs 5 1 2) = Some (mkChs 5 1 1).
Proof. split; [|vm_compute; reflexivity]. vm_compute. repeat constructor; cbn; intuition discriminate. Qed.
(* With a repeated sector number the chain can skip sectors for ever. *)
Theorem C27_metasector_duplicate_refuted : exists t c h, length (ids_of t) = 3 /\
  (forall k, exists s, follow t k (mkChs c h 1) = Some (mkChs c h s) /\ s <> 3%N) /\ In (mkChsn (mkChs c h 3) 0) (ids_of t).
Proof.
  exists (mkMST (mkCh 5 1) [ex_sec 1 false false; ex_sec 1 false false; ex_sec 3 false false]), 5%N, 1%N.
  split; [reflexivity|]. split; [|right; right; left; reflexivity].
  induction k as [|k (s & E & H)]; [exists 1%N; split; [reflexivity|discriminate]|].
  exists 1%N. split; [|discriminate].
  assert (X : forall k, follow (mkMST (mkCh 5 1) [ex_sec 1 false false; ex_sec 1 false false; ex_sec 3 false false]) k (mkChs 5 1 1) = Some (mkChs 5 1 1)).
  { clear. induction k as [|k IH]; [reflexivity|]. exact IH. }
  apply X.
Qed.

(* C36 (MetaSector tracks): reported weak exactly when a sector was added with a non-zero weak byte. *)
Theorem C36_metasector_has_weak : forall ps t, Forall (fun p => as_alternate p = false) ps ->
  ofold mt_add_sector ps (mkMST (mkCh 0 0) []) = Ok t ->
  (mt_has_weak_bits t = true <-> exists p m x, In p ps /\ as_weak p = Some m /\ In x m /\ x <> 0%N).
Proof.
  intros ps t F. assert (G : forall ps t0 t, Forall (fun p => as_alternate p = false) ps -> ofold mt_add_sector ps t0 = Ok t ->
    mt_sectors t = mt_sectors t0 ++ map sector_of ps).
  { clear. induction ps as [|p ps IH]; intros t0 t F E; cbn [ofold] in E.
    - injection E as <-. rewrite app_nil_r. reflexivity.
    - inversion F; subst. rewrite add_new in E by auto. cbn [obind] in E. rewrite (IH _ _ H2 E). cbn [mt_sectors map]. rewrite <- app_assoc. reflexivity. }
  intros E. apply G in E; auto. cbn [mt_sectors app] in E. unfold mt_has_weak_bits. rewrite E, existsb_exists. split.
  - intros (s & Hs & Hw). apply in_map_iff in Hs as (p & <- & Hp). unfold sector_of in Hw. cbn [ms_weak] in Hw.
    destruct (as_weak p) as [m|] eqn:Em; [|discriminate]. cbn [mask_from mm_has_bits] in Hw. unfold any_bit in Hw.
    apply existsb_exists in Hw as (x & Hx & Hn). exists p, m, x. repeat split; auto. apply negb_true_iff, N.eqb_neq in Hn. exact Hn.
  - intros (p & m & x & Hp & Hm & Hx & Hn). exists (sector_of p). split; [apply in_map; auto|].
    unfold sector_of. cbn [ms_weak]. rewrite Hm. cbn [mask_from mm_has_bits]. apply existsb_exists. exists x. split; auto.
    apply negb_true_iff, N.eqb_neq; auto.
Qed.
Example C36_metasector_has_weak_ex :
  let ps := [mkAddSector (ex_id 1) [1;2]%N (Some [0;4]%N) None (mkAttr false false false false) false] in
  Forall (fun p => as_alternate p = false) ps /\ exists t, ofold mt_add_sector ps (mkMST (mkCh 0 0) []) = Ok t /\ mt_has_weak_bits t = true.
Proof. cbn zeta. split; [repeat constructor|]. eexists; split; vm_compute; reflexivity. Qed.

(* C43 (MetaSector tracks): reading all sectors returns the concatenated data of the first track_len
   sectors (all, if there are fewer), for sectors with data and without weak bits. *)
Theorem C43_metasector_read_all : forall rnd t tl, Forall clean (mt_sectors t) ->
  exists r, mt_read_all_sectors rnd t tl = Ok r /\
    (let l := firstn (N.to_nat tl) (mt_sectors t) in
     rt_buf r = concat (map ms_data l) /\ rt_len_bytes r = length (rt_buf r) /\ rt_sectors_read r = N.of_nat (length l) /\
     (rt_not_found r = true <-> mt_sectors t = []) /\
     (rt_deleted r = true <-> exists s, In s l /\ ms_deleted s = true) /\
     (rt_address_crc_error r = true <-> exists s, In s l /\ ms_address_error s = true) /\
     (rt_data_crc_error r = true <-> exists s, In s l /\ ms_data_error s = true)).
Proof.
  intros rnd t tl HF. unfold mt_read_all_sectors.
  destruct (read_all_loop_spec rnd tl (mt_sectors t) 0 (mkTrackRead true false false false 0 [] 0 0) HF) as (r & -> & A & B & C & D & E & F).
  cbn [obind]. eexists. split; [reflexivity|]. cbn zeta.
  cbn [rt_buf rt_sectors_read rt_deleted rt_address_crc_error rt_data_crc_error rt_not_found rt_len_bytes] in *. rewrite N.sub_0_r in *.
  rewrite A, B, C, D, E, F. cbn [app orb]. rewrite !existsb_exists. repeat split; auto; try lia; try tauto.
  - destruct (mt_sectors t); [auto|discriminate].
  - intros ->. reflexivity.
Qed.
Example C43_metasector_read_all_ex :
  let t := mkMST (mkCh 5 1) [ex_sec 1 false false; ex_sec 2 true false] in
  Forall clean (mt_sectors t) /\ exists r, mt_read_all_sectors (fun _ _ => 0%N) t 1 = Ok r /\ rt_buf r = repeat 1%N 128.
Proof.
  cbn zeta. split; [|eexists; split; vm_compute; reflexivity].
  repeat constructor; cbn [ms_weak ex_sec mask_empty mm_mask ms_hole]; apply Forall_forall; intros x Hx; apply repeat_spec in Hx; auto.
Qed.

Print Assumptions C15_read_last_write.
Print Assumptions C15_write_outcome.
Print Assumptions C15_short_sector_refuted.
Print Assumptions C15_weak_read.
Print Assumptions C15_no_dam_data_refuted.
Print Assumptions C16_read_absent.
Print Assumptions C16_scan_absent.
Print Assumptions C16_scan_found.
Print Assumptions C16_write_absent.
Print Assumptions C16_write_not_found_refuted.
Print Assumptions C17_add_new.
Print Assumptions C17_add_then_read.
Print Assumptions C17_alternate.
Print Assumptions C17_alternate_panics_refuted.
Print Assumptions C26_metasector_analysis.
Print Assumptions C26_metasector_no_dam_refuted.
Print Assumptions C26_metasector_256_refuted.
Print Assumptions C27_metasector_next.
Print Assumptions C27_metasector_chain.
Print Assumptions C27_metasector_duplicate_refuted.
Print Assumptions C36_metasector_has_weak.
Print Assumptions C43_metasector_read_all.
