(* BitStream2_props.v - C40: sector headers without a data mark; C27: the id after an unknown sector. *)
From Verif Require Import Base Base_lemmas Chs_model BitRing_model Mfm_model Mfm_spec Mfm_proofs Codec_lemmas
  Crc_model Types_model System34_model S34_meta_proofs BitStream_model BitStream_props S34_track_proofs Bs_general_proofs Bs_loaded_proofs.
From Coq Require Import Lia.

(* ten decoded bytes of a sector header: mark, cylinder, head, sector, size code, CRC *)
Definition header_id (hdr : list N) : DiskChsn :=
  mkChsn (mkChs (nth 4 hdr 0%N) (nth 5 hdr 0%N) (nth 6 hdr 0%N)) (nth 7 hdr 0%N).
Definition crc_matches (hdr : list N) : Prop := exists x, crc16_bytes hdr = Ok (x, x).

Definition same_cells (m m' : Mfm) : Prop :=
  m_bits m' = m_bits m /\ m_clock m' = m_clock m /\ m_weak_enabled m' = m_weak_enabled m /\ m_weak m' = m_weak m.
Lemma read_u8_same rnd m m' i : same_cells m m' -> read_decoded_u8 rnd m' i = read_decoded_u8 rnd m i.
Proof.
  intros (A & B & C & D). destruct m as [m1 m2 m3 m4 m5 m6 m7 m8 m9], m' as [n1 n2 n3 n4 n5 n6 n7 n8 n9]. cbn [m_bits m_clock m_weak_enabled m_weak] in *. subst. reflexivity.
Qed.
Lemma read_buf_same rnd m m' n i : same_cells m m' -> read_decoded_buf rnd m' n i = read_decoded_buf rnd m n i.
Proof.
  intros H. unfold read_decoded_buf. f_equal. generalize (@nil N) as acc. induction (seq 0 n) as [|k l IH]; intros acc; cbn [ofold]; [reflexivity|].
  rewrite (read_u8_same rnd m m' _ H). destruct (read_decoded_u8 rnd m _); cbn [obind]; auto.
Qed.
Lemma moved_same m m' : moved m m' -> same_cells m m'.
Proof. intros [c ->]. repeat split. Qed.

Definition header_at (rnd : nat -> bool) (m : Mfm) (a : nat) (c : DiskChsn) (good : bool) : Prop :=
  exists hdr, read_decoded_buf rnd m 10 a = Ok hdr /\ length hdr = 10 /\ c = header_id hdr /\ (good = true <-> crc_matches hdr).
Lemma read_header_at rnd m a s : read_header rnd m a = Ok s -> header_at rnd m a (sid_chsn s) (sid_valid s).
Proof.
  unfold read_header. destruct (read_decoded_buf rnd m 10 a) as [hdr| |] eqn:E; cbn [obind]; try discriminate.
  destruct hdr as [|b0 [|b1 [|b2 [|b3 [|b4 [|b5 [|b6 [|b7 [|b8 [|b9 [|b10 l]]]]]]]]]]]; try discriminate.
  intros E'. injection E' as <-. eexists. split; [exact E|]. split; [reflexivity|]. split; [reflexivity|].
  cbn [sid_valid]. unfold crc_matches, crc16_bytes. 
  split.
  - intros H. apply N.eqb_eq in H. exists (from_be16 b8 b9). cbn [length Nat.ltb Nat.leb oindex nth_error obind minus firstn]. rewrite <- H. reflexivity.
  - intros [x H]. apply N.eqb_eq. cbn [length Nat.ltb Nat.leb oindex nth_error obind minus firstn] in H. congruence.
Qed.

(* what the scan knows about the last header, and what it says about each header without data *)
Definition lone_ok (rnd : nat -> bool) (m : Mfm) (items : list Inst) (i : Inst) : Prop :=
  forall c ae, i_elem i = ElHeader c ae true ->
    header_at rnd m (i_start i) c (negb ae) /\ exists j, In j items /\ i_elem j = ElMarker Idam /\ i_start j = i_end i.
Record hinv (rnd : nat -> bool) (m : Mfm) (st : ScanState) : Prop := mkHI {
  hi_m : moved m (ss_m st);
  hi_sid : ss_last st = Some Idam -> header_at rnd m (ss_off st) (sid_chsn (ss_sid st)) (sid_valid (ss_sid st));
  hi_items : forall i, In i (ss_elems st) -> lone_ok rnd m (ss_elems st) i }.
Lemma header_at_moved rnd m m' a c g : moved m m' -> header_at rnd m' a c g -> header_at rnd m a c g.
Proof. intros H (hdr & E & R). exists hdr. rewrite (read_buf_same rnd m m' _ _ (moved_same _ _ H)) in E. auto. Qed.
Lemma lone_ok_more rnd m l l' i : lone_ok rnd m l i -> lone_ok rnd m (l ++ l') i.
Proof. intros H c ae E. destruct (H c ae E) as [A (j & J & R)]. split; auto. exists j. split; [apply in_or_app; auto|auto]. Qed.
Lemma scan_fold_hinv rnd m L : forall st st', ofold (scan_step rnd) L st = Ok st' -> hinv rnd m st -> hinv rnd m st'.
Proof.
  induction L as [|[mk off] L IH]; intros st st'; cbn [ofold]; [intros E; injection E as <-; auto|].
  destruct (scan_step rnd st (mk, off)) as [st1| |] eqn:E1; cbn [obind]; try discriminate.
  intros E [Hm Hs Hi]. apply (IH st1 st' E). clear IH E.
  apply scan_step_inv in E1 as (new & Ee & P & El & Eo & Em & Hid & _).
  constructor.
  - eapply moved_trans; eauto.
  - rewrite El, Eo. intros E; injection E as ->. eapply header_at_moved; [exact Hm|]. apply read_header_at; auto.
  - rewrite Ee. intros i Hin. apply in_app_or in Hin as [Hin|Hin]; [apply lone_ok_more; auto|].
    destruct P as [P|P1 P2|de P1 P2 P3]; cbn [In] in Hin.
    + destruct Hin as [<-|[]]. intros c ae X; discriminate X.
    + subst mk. destruct Hin as [<-|[<-|[]]]; [|intros c ae X; discriminate X].
      intros c ae X. cbn [i_elem] in X. injection X as <- <-. rewrite negb_involutive. split; [apply Hs; auto|].
      eexists. split; [apply in_or_app; right; right; left; reflexivity|]. split; reflexivity.
    + destruct Hin as [<-|[<-|[<-|[]]]]; intros c ae X; discriminate X.
Qed.

(* On every track loaded from file data: the status reported for a header without data mark. *)
Theorem C40_header_status : forall rnd0 ch data ct t k i c ae,
  bt_new rnd0 ch data None ct false = Ok t ->
  nth_error (md_items (bt_meta t)) k = Some i -> i_elem i = ElHeader c ae true ->
  exists hdr, read_decoded_buf rnd0 (bt_data t) 10 (i_start i) = Ok hdr /\ c = header_id hdr /\
    ((* another header follows: the CRC status is right *)
     (exists j, In j (md_items (bt_meta t)) /\ i_elem j = ElMarker Idam /\ i_start j = i_end i) /\ (ae = false <-> crc_matches hdr) \/
     (* the last element of the track: it is inverted *)
     S k = length (md_items (bt_meta t)) /\ (ae = true <-> crc_matches hdr)).
Proof.
  intros rnd0 ch data ct t k i c ae Ht Hk Hi.
  destruct (new_cells _ _ _ _ _ Ht) as (m & bits & Em & _ & _ & _ & _ & _ & _ & D).
  destruct D as [(_ & _ & Q & _)|(L & cm & items & m' & Hsc & HL & _ & Es & Q & _ & Ed)]; rewrite Q in *; [destruct k; discriminate Hk|].
  cbn [meta_new md_items] in *.
  assert (Hne : mfm_len m <> 0) by (intros H0; rewrite (empty_scan m H0) in Hsc; congruence).
  destruct (mfm_new_fmt _ _ _ Em Hne) as (P1 & _). destruct (scan_markers_inv m L P1 Hsc) as [Hsp _].
  set (m0 := set_clock_bits m cm) in *.
  assert (Hsame : same_cells m0 (bt_data t)).
  { apply scan_metadata_moved in Es. apply moved_same in Es. rewrite Ed. destruct (data_ranges _); exact Es. }
  unfold scan_metadata in Es. destruct (ofold _ _ _) as [st| |] eqn:E; cbn [obind] in Es; try discriminate.
  assert (HI : hinv rnd0 m0 st).
  { eapply scan_fold_hinv; [exact E|]. constructor; cbn; [apply moved_refl|discriminate|contradiction]. }
  eapply scan_fold_inv in E as (n' & [W S B X] & _); eauto; [|constructor; cbn; auto; try contradiction; constructor].
  destruct HI as [_ Hs Hit].
  assert (G : exists els, items = map_last set_last els /\
     (els = ss_elems st \/ ss_last st = Some Idam /\ els = ss_elems st ++ [mkInst (ElHeader (sid_chsn (ss_sid st)) (sid_valid (ss_sid st)) true) (ss_off st) (ss_off st + 256) None false])).
  { injection Es as <- _. eexists. split; [reflexivity|]. destruct (ss_last st) as [[]|] eqn:El; rewrite ?sort_sorted; auto.
    apply nondecr_app; auto. intros x Hc. cbn [nondecr i_start]. split; [|auto].
    destruct Hc as [->|(y & Hy & ->)]; [lia|]. specialize (B y Hy). lia. }
  destruct G as (els & -> & G).
  (* the flag set on the last element does not matter *)
  assert (ML : forall l : list Inst, (forall j, In j l -> exists j', In j' (map_last set_last l) /\ i_elem j' = i_elem j /\ i_start j' = i_start j) /\
     length (map_last set_last l) = length l /\
     forall k i, nth_error (map_last set_last l) k = Some i -> exists i', nth_error l k = Some i' /\ i_elem i = i_elem i' /\ i_start i = i_start i' /\ i_end i = i_end i').
  { intros l. destruct l as [|y l _] using rev_ind; [split; [intros j []|split; [reflexivity|intros [|] ? XX; discriminate XX]]|].
    rewrite map_last_snoc. rewrite !app_length. split; [|split; [reflexivity|]].
    - intros j Hj. apply in_app_or in Hj as [Hj|[<-|[]]]; [exists j; split; [apply in_or_app; auto|auto]|].
      exists (set_last y). split; [apply in_or_app; right; left; auto|]. split; reflexivity.
    - intros k0 i0 Hk0. destruct (Nat.lt_ge_cases k0 (length l)) as [Hlt|Hge].
      + rewrite nth_error_app1 in * by auto. eauto.
      + rewrite nth_error_app2 in * by auto. destruct (k0 - length l) as [|z]; cbn [nth_error] in *; [|destruct z; discriminate].
        injection Hk0 as <-. exists y. repeat split. }
  destruct (ML els) as (ML1 & ML2 & ML3). clear ML.
  apply ML3 in Hk as (i' & Hk' & E1 & E2 & E3). rewrite E1 in Hi. rewrite E2, E3, ML2.
  assert (Hold : In i' (ss_elems st) -> exists hdr, read_decoded_buf rnd0 (bt_data t) 10 (i_start i') = Ok hdr /\ c = header_id hdr /\
     (exists j, In j (ss_elems st) /\ i_elem j = ElMarker Idam /\ i_start j = i_end i') /\ (ae = false <-> crc_matches hdr)).
  { intros Hin. destruct (Hit i' Hin c ae Hi) as [(hdr & R1 & R2 & R3 & R4) J]. exists hdr.
    rewrite (read_buf_same _ _ _ _ _ Hsame). split; [exact R1|]. split; [exact R3|]. split; [exact J|]. rewrite <- R4. destruct ae; cbn [negb]; split; congruence. }
  assert (Hlift : In i' (ss_elems st) -> (forall j, In j (ss_elems st) -> In j els) ->
     exists hdr, read_decoded_buf rnd0 (bt_data t) 10 (i_start i') = Ok hdr /\ c = header_id hdr /\
       (exists j, In j (map_last set_last els) /\ i_elem j = ElMarker Idam /\ i_start j = i_end i') /\ (ae = false <-> crc_matches hdr)).
  { intros Hin Hsub. destruct (Hold Hin) as (hdr & R1 & R2 & (j & J1 & J2 & J3) & R3). exists hdr. split; [exact R1|]. split; [exact R2|]. split; [|exact R3].
    destruct (ML1 j (Hsub j J1)) as (j' & K1 & K2 & K3). exists j'. split; [exact K1|]. split; congruence. }
  destruct G as [->|[El ->]].
  - destruct (Hlift (nth_error_In _ _ Hk')) as (hdr & R1 & R2 & R3 & R4); [auto|]. exists hdr. auto.
  - destruct (Nat.lt_ge_cases k (length (ss_elems st))) as [Hlt|Hge].
    + rewrite nth_error_app1 in Hk' by auto. destruct (Hlift (nth_error_In _ _ Hk')) as (hdr & R1 & R2 & R3 & R4); [intros j Hj; apply in_or_app; auto|].
      exists hdr. auto.
    + rewrite nth_error_app2 in Hk' by auto. rewrite app_length. cbn [length].
      destruct (k - length (ss_elems st)) as [|z] eqn:Ez; cbn [nth_error] in Hk'; [|destruct z; discriminate].
      injection Hk' as <-. cbn [i_elem i_start] in *. injection Hi as <- <-.
      destruct (Hs El) as (hdr & R1 & R2 & R3 & R4). exists hdr. rewrite (read_buf_same _ _ _ _ _ Hsame).
      split; [exact R1|]. split; [exact R3|]. right. split; [lia|exact R4].
Qed.

(* Two header marks of the loaded data in a row: the first is reported as a header without data mark. *)
Theorem C40_header_kept : forall rnd0 ch data ct t m A a b B, data <> [] ->
  bt_new rnd0 ch data None ct false = Ok t -> mfm_new (flat_map byte_bits data) ct None = Ok m ->
  scan_markers m = Ok (A ++ [(Idam, a); (Idam, b)] ++ B) ->
  exists k i c ae, nth_error (md_items (bt_meta t)) k = Some i /\ i_elem i = ElHeader c ae true /\ i_start i = a /\ i_end i = b.
Proof.
  intros rnd0 ch data ct t m A a b B Hd Ht Hm Hsc.
  destruct (new_cells _ _ _ _ _ Ht) as (m1 & bits & Em & Hb & _ & _ & _ & _ & _ & D).
  rewrite (Hb Hd), Hm in Em. injection Em as <-. 
  destruct D as [(Q & _)|(L & cm & items & m' & Hsc' & HL & _ & Es & Q & _ & Ed)]; [rewrite Hsc in Q; destruct A; discriminate Q|].
  rewrite Hsc in Hsc'. injection Hsc' as <-. rewrite Q. cbn [meta_new md_items].
  unfold scan_metadata in Es. destruct (ofold _ _ _) as [st| |] eqn:E; cbn [obind] in Es; try discriminate.
  assert (G : exists i c ae, In i (ss_elems st) /\ i_elem i = ElHeader c ae true /\ i_start i = a /\ i_end i = b).
  { clear Es. rewrite TreeMap_proofs.ofold_app in E. destruct (ofold (scan_step rnd0) A _) as [s0| |]; cbn [obind] in E; try discriminate.
    cbn [app ofold] in E.
    destruct (scan_step rnd0 s0 (Idam, a)) as [s1| |] eqn:E1; cbn [obind] in E; try discriminate.
    destruct (scan_step rnd0 s1 (Idam, b)) as [s2| |] eqn:E2; cbn [obind] in E; try discriminate.
    apply scan_step_inv in E1 as (n1 & _ & _ & L1 & O1 & _). apply scan_step_inv in E2 as (n2 & X2 & P & _).
    assert (K : exists i c ae, In i (ss_elems s2) /\ i_elem i = ElHeader c ae true /\ i_start i = a /\ i_end i = b).
    { destruct P as [[P|P]|P1 P2|de P1 P2 P3]; [congruence|discriminate| |destruct P2; discriminate].
      rewrite X2. eexists. eexists. eexists. split; [apply in_or_app; right; left; reflexivity|]. cbn [i_elem i_start i_end]. auto. }
    clear - E K. revert s2 E K. induction B as [|[mk off] B IH]; intros s2; cbn [ofold]; [intros E; injection E as <-; auto|].
    destruct (scan_step rnd0 s2 (mk, off)) as [s3| |] eqn:E3; cbn [obind]; try discriminate.
    intros E (i & c & ae & Hi & R). apply (IH s3 E). apply scan_step_inv in E3 as (n3 & X3 & _). rewrite X3.
    exists i, c, ae. split; [apply in_or_app; auto|exact R]. }
  destruct G as (i & c & ae & Hi & Ei & Es1 & Es2).
  injection Es as <- _.
  assert (G2 : forall l, In i l -> exists k i', nth_error (map_last set_last l) k = Some i' /\ i_elem i' = i_elem i /\ i_start i' = i_start i /\ i_end i' = i_end i).
  { intros l Hl. destruct l as [|y l _] using rev_ind; [destruct Hl|]. rewrite map_last_snoc.
    apply in_app_or in Hl as [Hl|[->|[]]].
    - apply In_nth_error in Hl as [k Hk]. exists k, i. rewrite nth_error_app1; [auto|]. apply nth_error_Some. congruence.
    - exists (length l), (set_last i). rewrite nth_error_app2, Nat.sub_diag by lia. repeat split. }
  match goal with |- context [stable_sort_by ?f ?l] => assert (Hin : In i (stable_sort_by f l)) by
    (apply Chs_proofs.stable_sort_by_in; destruct (ss_last st) as [[]|]; auto; apply in_or_app; auto);
    destruct (G2 _ Hin) as (k & i' & K1 & K2 & K3 & K4) end.
  exists k, i', c, ae. split; [exact K1|]. split; [congruence|]. split; congruence.
Qed.

(* Any track: when the first header with the requested sector number (from the given position) has no data mark,
   a read in normal mode says so, with the id and the CRC status of that header, and returns no data. *)
Theorem C40_read_no_dam : forall t rnd q n offset scope debug pre i post c ae,
  bt_schema t = true -> md_items (bt_meta t) = pre ++ i :: post -> i_elem i = ElHeader c ae true ->
  chsn_s c = q_s q -> off_of offset <= i_start i ->
  (forall j c' ae' dm, In j pre -> i_elem j = ElHeader c' ae' dm -> off_of offset <= i_start j -> chsn_s c' <> q_s q) ->
  exists r, bt_read_sector rnd t q n offset scope debug = Ok r /\ rs_no_dam r = true /\ rs_not_found r = true /\
    rs_id r = Some c /\ rs_address_crc_error r = ae /\ rs_buf r = [].
Proof.
  intros t rnd q n offset scope debug pre i post c ae Hs Hit Hi Hc Ho Hpre.
  unfold bt_read_sector, scan_sector_element. rewrite Hs, Hit. cbn [negb obind].
  assert (G : forall ei wc bc wh, exists k last, find_elem_loop q (off_of offset) (pre ++ i :: post) ei wc bc wh false = Found k c ae false false true last).
  { clear Hit. induction pre as [|j pre IH]; intros ei wc bc wh; cbn [app find_elem_loop].
    - destruct (Nat.ltb_spec (i_start i) (off_of offset)); [lia|]. rewrite Hi, Hc, N.eqb_refl, orb_true_r. eauto.
    - specialize (IH ltac:(intros; eapply Hpre; eauto; right; auto)).
      destruct (Nat.ltb_spec (i_start j) (off_of offset)) as [Hlt|Hge]; [apply IH|].
      destruct (i_elem j) as [mk|c' ae' dm|c' ae' de del] eqn:Ej; [apply IH| |apply IH].
      destruct (N.eqb_spec (chsn_s c') (q_s q)) as [Hq|Hq]; [|apply IH].
      exfalso. eapply Hpre; eauto. left; auto. }
  unfold find_sector_element. destruct (G 0 false false false) as (k & last & ->). cbn [obind].
  eexists. split; [reflexivity|]. repeat split.
Qed.

(* Two lone headers: the first, followed by the other, is reported as a header without data mark. *)
Definition tiny_lone2 : list N := tiny_lone ++ tiny_lone.
Example C40_ex : exists t m, tiny_load tiny_lone2 = Ok t /\ mfm_new (flat_map byte_bits tiny_lone2) None None = Ok m /\
  scan_markers m = Ok ([] ++ [(Idam, 16); (Idam, 208)] ++ []) /\
  exists i post, md_items (bt_meta t) = [mkInst (ElMarker Idam) 16 80 (Some tiny_id) false] ++ i :: post /\
    i_elem i = ElHeader tiny_id false true /\ chsn_s tiny_id = q_s tiny_q.
Proof.
  eexists. eexists. split; [vm_compute; reflexivity|]. split; [vm_compute; reflexivity|]. split; [vm_compute; reflexivity|].
  eexists. eexists. split; [vm_compute; reflexivity|]. split; vm_compute; reflexivity.
Qed.

(* C27: the id after a sector number that is not on the track: none. *)
Theorem C27_bitstream_absent : forall t chs, (forall id, In id (md_ids (bt_meta t)) -> chsn_s id <> chs_s chs) -> bt_next_id t chs = None.
Proof.
  intros t chs H. unfold bt_next_id. destruct (md_ids (bt_meta t)) as [|f l] eqn:E; [reflexivity|].
  assert (G : forall l, (forall id, In id l -> chsn_s id <> chs_s chs) -> next_id_loop (chs_s chs) l false = inr false).
  { clear. induction l as [|x l IH]; intros H; cbn [next_id_loop]; [reflexivity|].
    destruct (N.eqb_spec (chsn_s x) (chs_s chs)); [exfalso; eapply H; [left; reflexivity|auto]|]. apply IH. intros; apply H; right; auto. }
  rewrite G; auto.
Qed.
Example C27_bitstream_absent_ex : exists t, tiny_load tiny_normal = Ok t /\ bt_next_id t (mkChs 1 0 4) = None /\ bt_next_id t (mkChs 1 0 3) = Some tiny_id.
Proof. eexists. split; [vm_compute; reflexivity|]. split; vm_compute; reflexivity. Qed.

Print Assumptions C40_header_status.
Print Assumptions C40_header_kept.
Print Assumptions C40_read_no_dam.
Print Assumptions C27_bitstream_absent.
