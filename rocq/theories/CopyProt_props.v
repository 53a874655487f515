(* CopyProt_props.v - property C82: DiskImage::detect_copy_protection (src/copy_protection.rs) on sector images. *)
From Verif Require Import Base Chs_model Types_model MetaSector_model MetaSector_spec MetaSector_proofs BitStream_model DiskImage_model CopyProt_model.
From Coq Require Import Lia.

(* The track has sector 1 with size code n under the track's own cylinder and head, and the first such sector has bad data;
   ae tells whether its header is bad as well. *)
Definition damaged (t : MetaSectorTrack) (n : N) (ae : bool) : Prop := exists i s,
  nth_error (mt_sectors t) i = Some s /\ ms_id s = mkChsn (mkChs (ch_c (mt_ch t)) (ch_h (mt_ch t)) 1) n /\ ms_data_error s = true /\ ms_address_error s = ae /\
  forall j s', j < i -> nth_error (mt_sectors t) j = Some s' -> ms_id s' <> mkChsn (mkChs (ch_c (mt_ch t)) (ch_h (mt_ch t)) 1) n.
(* What a track alone gives away. *)
Inductive signature (t : MetaSectorTrack) : Scheme -> Prop :=
| sig_copylock1 : damaged t 1 false -> signature t (FormasterCopyLock 1)
| sig_copylock2 : damaged t 1 true -> signature t (FormasterCopyLock 2)
| sig_superlok ae : (forall ae, ~ damaged t 1 ae) -> (1 < ch_c (mt_ch t))%N -> damaged t 6 ae -> signature t (SoftguardSuperlok 1)
| sig_interlock : (forall ae, ~ damaged t 1 ae) -> ((ch_c (mt_ch t) <= 1)%N \/ forall ae, ~ damaged t 6 ae) -> length (mt_sectors t) = 96 -> signature t (EaInterlock 1).

Lemma scan_one t n : exists r, mt_scan_sector t (mkQuery (Some (ch_c (mt_ch t))) (Some (ch_h (mt_ch t))) 1 (Some n)) = Ok r /\
  (sc_data_error r = true -> damaged t n (sc_address_error r)) /\ (forall ae, damaged t n ae -> sc_data_error r = true /\ sc_address_error r = ae).
Proof.
  set (q := mkQuery _ _ _ _). set (X := mkChsn (mkChs (ch_c (mt_ch t)) (ch_h (mt_ch t)) 1) n).
  assert (Q : forall id, query_matches q id = true <-> id = X).
  { intros [[c h s] m]. unfold query_matches, q, X. cbn [q_s q_c q_h q_n chsn_s chsn_c chsn_h chsn_n chsn_chs chs_s chs_c chs_h]. split.
    - destruct (N.eqb_spec 1 s); [|discriminate]. destruct (N.eqb_spec (ch_c (mt_ch t)) c); [|discriminate].
      destruct (N.eqb_spec (ch_h (mt_ch t)) h); [|discriminate]. destruct (N.eqb_spec n m); [|discriminate]. intros _. subst. reflexivity.
    - intros E. injection E as -> -> -> ->. rewrite !N.eqb_refl. reflexivity. }
  unfold mt_scan_sector. set (sm := match_sectors t q).
  assert (G : forall l k, let P := map fst (filter (fun p => query_matches q (snd p)) (combine (seq k (length (map ms_id l))) (map ms_id l))) in
    match P with [] => forall s, In s l -> ms_id s <> X
    | i :: _ => exists j s, i = k + j /\ nth_error l j = Some s /\ ms_id s = X /\ forall j' s', j' < j -> nth_error l j' = Some s' -> ms_id s' <> X end).
  { induction l as [|s l IH]; intros k; cbn [map length seq combine filter snd fst]; [intros s []|]. destruct (query_matches q (ms_id s)) eqn:E.
    - cbn [map fst]. exists 0, s. split; [lia|]. split; [reflexivity|]. split; [apply Q, E|]. intros j' s' H; lia.
    - specialize (IH (S k)). cbv zeta in IH |- *. assert (Ne : ms_id s <> X) by (intros H; apply Q in H; congruence). destruct (map fst _) as [|i P].
      + intros s' [<-|H]; [exact Ne|exact (IH s' H)].
      + destruct IH as (j & s1 & -> & H1 & H2 & H3). exists (S j), s1. split; [lia|]. split; [exact H1|]. split; [exact H2|]. intros [|j'] s' Hj Hs'; [injection Hs' as <-; exact Ne|].
        apply (H3 j' s'); [lia|exact Hs']. }
  specialize (G (mt_sectors t) 0). cbv zeta in G. change (map fst _) with (sm_idx sm) in G. destruct (sm_idx sm) as [|i P].
  - eexists. split; [reflexivity|]. cbn [sc_data_error sc_address_error]. split; [discriminate|]. intros ae (i & s & Hi & Hid & _). exfalso. apply (G s); [apply nth_error_In with i, Hi|exact Hid].
  - destruct G as (j & s & -> & Hs & Hid & Hmin). cbn [Nat.add]. unfold oindex. rewrite Hs. cbn [obind]. eexists. split; [reflexivity|]. cbn [sc_data_error sc_address_error]. split.
    + intros Hd. exists j, s. repeat split; auto.
    + intros ae (i & s' & Hi & Hid' & Hd & Ha & Hm). destruct (lt_eq_lt_dec i j) as [[L|E]|L].
      * exfalso. exact (Hmin i s' L Hi Hid').
      * subst i. assert (s' = s) by congruence. subst s'. auto.
      * exfalso. exact (Hm j s L Hs Hid).
Qed.
Lemma detect_one t : exists o, detect_track (TMeta t) = Ok o /\ (forall v, o = Some v <-> signature t v).
Proof.
  destruct (scan_one t 1) as (r1 & E1 & A1 & B1). destruct (scan_one t 6) as (r6 & E6 & A6 & B6).
  unfold detect_track, tk_scan. cbn [tk_ch]. rewrite E1, E6. cbn [if_ok obind]. destruct r1 as [nf nd de ae [|] wc bc wh]; cbn [sc_data_error sc_address_error] in A1, B1.
  - eexists. split; [reflexivity|]. specialize (A1 eq_refl). intros v. split.
    + intros H. injection H as <-. destruct ae; [apply sig_copylock2|apply sig_copylock1]; exact A1.
    + intros S. destruct S as [D|D|ae' N _ _|N _ _]; [| |exfalso; exact (N _ A1)|exfalso; exact (N _ A1)]; destruct (B1 _ D) as [_ ->]; reflexivity.
  - assert (N1 : forall ae, ~ damaged t 1 ae) by (intros ae' D; destruct (B1 _ D); discriminate).
    assert (L : forall o : option Scheme, (o = if length (mt_sectors t) =? 96 then Some (EaInterlock 1) else None) -> ((ch_c (mt_ch t) <= 1)%N \/ forall ae, ~ damaged t 6 ae) -> forall v, o = Some v <-> signature t v).
    { intros o -> N6 v. split.
      - destruct (Nat.eqb_spec (length (mt_sectors t)) 96); [|discriminate]. intros H; injection H as <-. apply sig_interlock; assumption.
      - intros S. destruct S as [D|D|ae' _ C D|_ _ C]; [exfalso; exact (N1 _ D)|exfalso; exact (N1 _ D)| |rewrite C; reflexivity].
        exfalso. destruct N6 as [N6|N6]; [lia|exact (N6 _ D)]. }
    destruct (N.ltb_spec 1 (ch_c (mt_ch t))) as [C|C].
    + destruct r6 as [nf6 nd6 de6 ae6 [|] wc6 bc6 wh6]; cbn [obind sc_data_error sc_address_error] in *.
      * eexists. split; [reflexivity|]. specialize (A6 eq_refl). intros v. split; [intros H; injection H as <-; exact (sig_superlok t _ N1 C A6)|].
        intros S. destruct S as [D|D|ae' _ _ D|_ N6 _]; [exfalso; exact (N1 _ D)|exfalso; exact (N1 _ D)|reflexivity|]. exfalso. destruct N6 as [N6|N6]; [lia|exact (N6 _ A6)].
      * cbn [tk_sector_ct obind]. eexists. split; [reflexivity|]. apply L; [reflexivity|right]. intros ae' D. destruct (B6 _ D); discriminate.
    + cbn [obind tk_sector_ct]. eexists. split; [reflexivity|]. apply L; [reflexivity|left; exact C].
Qed.
(* On an image of sector tracks the detection never fails; it reports what the first track that gives anything away gives away, in the
   order of the cylinders and, within a cylinder, of the heads; nothing is reported exactly when no track gives anything away. *)
Theorem C82_detect : forall d ts, track_iter d = map TMeta ts -> exists o, detect_copy_protection d = Ok o /\
  (forall v, o = Some v <-> exists before t after, ts = before ++ t :: after /\ signature t v /\ forall t', In t' before -> forall v', ~ signature t' v').
Proof.
  intros d ts H. unfold detect_copy_protection. rewrite H. clear H d. induction ts as [|t ts IH]; cbn [map detect_loop].
  - eexists. split; [reflexivity|]. intros v. split; [discriminate|]. intros ([|] & t & a & E & _); discriminate.
  - destruct (detect_one t) as (o & E & S). rewrite E. cbn [obind]. destruct o as [v0|].
    + eexists. split; [reflexivity|]. intros v. split.
      * intros X. exists [], t, ts. split; [reflexivity|]. split; [apply S, X|]. intros t' [].
      * intros ([|b B] & t1 & a & Es & Sg & Nb); injection Es as <- Ea; [apply S, Sg|]. exfalso. apply (Nb t (or_introl eq_refl) v0). apply S. reflexivity.
    + destruct IH as (o & Eo & So). exists o. split; [exact Eo|]. intros v. rewrite So. split.
      * intros (b & t1 & a & -> & Sg & Nb). exists (t :: b), t1, a. split; [reflexivity|]. split; [exact Sg|]. intros t' [<-|I] v' Sv; [|exact (Nb t' I v' Sv)]. apply S in Sv. discriminate.
      * intros ([|b B] & t1 & a & Es & Sg & Nb); injection Es as <- Ea; [apply S in Sg; discriminate|]. exists B, t1, a. split; [exact Ea|]. split; [exact Sg|]. intros t' I. apply Nb. right. exact I.
Qed.
(* On images of any kind four of the seven schemes are never reported: protected disks with them count as unprotected. *)
Theorem C82_never_refuted : forall d v, detect_copy_protection d = Ok (Some v) -> v = FormasterCopyLock 1 \/ v = FormasterCopyLock 2 \/ v = SoftguardSuperlok 1 \/ v = EaInterlock 1.
Proof.
  intros d v. unfold detect_copy_protection. generalize (track_iter d). induction l as [|t l IH]; cbn [detect_loop]; [discriminate|].
  destruct (detect_track t) as [[w|]| |] eqn:E; cbn [obind]; try discriminate; [|exact IH]. intros H. injection H as <-.
  unfold detect_track in E. destruct (if_ok (tk_scan t (mkQuery _ _ _ (Some 1%N)))) as [r| |]; cbn [obind] in E; try discriminate.
  assert (G : forall r2 : outcome (option ScanSectorResult), (let! r := r2 in match r with Some (mkScan _ _ _ _ true _ _ _) => Ok (Some (SoftguardSuperlok 1))
      | _ => let! n := tk_sector_ct t in Ok (if n =? 96 then Some (EaInterlock 1) else None) end) = Ok (Some w) -> w = SoftguardSuperlok 1 \/ w = EaInterlock 1).
  { clear. intros [r| |] H; cbn [obind] in H; try discriminate.
    assert (G : (let! n := tk_sector_ct t in Ok (if n =? 96 then Some (EaInterlock 1) else None)) = Ok (Some w) -> w = EaInterlock 1).
    { destruct (tk_sector_ct t) as [n| |]; cbn [obind]; try discriminate. destruct (n =? 96); [|discriminate]. intros X; injection X as <-; reflexivity. }
    destruct r as [[a b c e [|] f g h]|]; [injection H as <-; auto|right; exact (G H)|right; exact (G H)]. }
  destruct r as [[a b c e [|] f g h]|]; [destruct e; injection E as <-; auto|apply G in E; tauto|apply G in E; tauto].
Qed.
Definition cp_sec (s n : N) (de : bool) : MetaSector := mkMS (mkChsn (mkChs 3 0 s) n) false de false false (repeat 0%N 4) (mask_empty 4) (mask_empty 4).
(* A worn disk with sectors of 256 bytes (as on many systems) is taken for a protected one: one bad sector is enough. *)
Theorem C82_worn_refuted : forall ss, let t := mkMST (mkCh 3 0) (cp_sec 1 1 true :: ss) in
  signature t (FormasterCopyLock 1) /\ forall d, track_iter d = [TMeta t] -> detect_copy_protection d = Ok (Some (FormasterCopyLock 1)).
Proof.
  intros ss t. assert (S : signature t (FormasterCopyLock 1)).
  { apply sig_copylock1. exists 0, (cp_sec 1 1 true). repeat split. intros j s' H; lia. }
  split; [exact S|]. intros d H. destruct (C82_detect d [t] H) as (o & E & So). rewrite E. f_equal. apply So. exists [], t, []. split; [reflexivity|]. split; [exact S|]. intros t' [].
Qed.
Example C82_witness : let t0 := mkMST (mkCh 3 0) [cp_sec 1 2 true] in let t1 := mkMST (mkCh 3 0) [cp_sec 2 6 true; cp_sec 1 6 true] in
  let d := mkDI false [] (mkCh 4 2) da_default [TMeta t0; TMeta t1] [0] [1] in
  track_iter d = map TMeta [t0; t1] /\ detect_copy_protection d = Ok (Some (SoftguardSuperlok 1)).
Proof. split; reflexivity. Qed.

Print Assumptions C82_detect.
Print Assumptions C82_never_refuted.
Print Assumptions C82_worn_refuted.
