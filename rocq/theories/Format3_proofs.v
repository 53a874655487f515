(* Format3_proofs.v - formatting a whole disk image: assembly. *)
From Coq Require Import String List.
From Verif Require Import Base Base_lemmas Chs_model Chs_proofs BitRing_model Mfm_model Types_model System34_model System34_spec MetaSector_model MetaSector_spec
  BitStream_model BitStream_spec MetaSector_proofs Bs_more_proofs S34_layout_proofs S34_meta_proofs S34_track_proofs S34_ops_proofs S34_write_proofs Bs_general_proofs Bs_history_proofs
  DiskImage_model DiskImage_spec DiskImage_proofs DiskImage2_proofs Format_model Format_spec Format_proofs Format2_proofs.
Import ListNotations.

Lemma format_add : forall f d, is_pc f -> di_pool d = [] -> di_map0 d = [] -> di_map1 d = [] -> res_free d ->
  exists d' F, sfold (add_step f) (heads_cylinders (sf_layout f)) d = (d', Ok tt) /\ res_free d' /\ wf d' (tab F (lc f) (lh f)) /\
    forall h c, (h < lh f)%N -> (c < lc f)%N -> exists b, F h c = TBit b /\ ready f (mkCh c h) b.
Proof.
  intros f d Hpc P M0 M1 Hr. destruct (layout_facts f Hpc) as (_ & _ & _ & _ & _ & _ & Hcells & _).
  destruct (blank_bits (N.to_nat (sf_bitcell_ct f)) ltac:(lia)) as (m & Em & Hlm & Hfm).
  pose proof (empty_wf d P M0 M1) as Hwf.
  assert (Hready : forall ch, ready f ch (mkTrack ch m meta_default true)).
  { intros ch. repeat split; auto; apply (Hfm ch). }
  destruct (add_head f m 0%N Em ltac:(lia) (N.to_nat (lc f)) d _ Hwf Hr eq_refl) as (d1 & E1 & R1 & W1).
  rewrite N2Nat.id in E1, W1. unfold heads_cylinders.
  assert (HH : lh f = 1%N \/ lh f = 2%N) by apply lh_12. unfold lh in HH. fold (lc f). unfold lh at 1.
  exists (if (lh f <? 2)%N then d1 else fst (sfold (add_step f) (map (fun c => mkCh c 1%N) (Nseq (lc f))) d1)).
  exists (fun h c => TBit (mkTrack (mkCh c h) m meta_default true)).
  destruct HH as [HH|HH]; unfold lh; rewrite HH.
  - change (Nseq 1) with [0%N]. cbn [flat_map]. rewrite app_nil_r. change (1 <? 2)%N with true. cbn iota.
    split; [exact E1|]. split; [exact R1|]. split; [exact W1|]. intros h c _ _. eexists. split; [reflexivity|apply Hready].
  - destruct (add_head f m 1%N Em ltac:(lia) (N.to_nat (lc f)) d1 _ W1 R1 eq_refl) as (d2 & E2 & R2 & W2). rewrite N2Nat.id in E2, W2.
    change (Nseq 2) with [0%N; 1%N]. cbn [flat_map]. rewrite app_nil_r. change (2 <? 2)%N with false. cbn iota.
    rewrite (sfold_app _ _ _ _ _ E1), E2. cbn [fst]. split; [reflexivity|]. split; [exact R2|]. split; [exact W2|].
    intros h c _ _. eexists. split; [reflexivity|apply Hready].
Qed.

Lemma sfold_ext : forall {S A} (g g' : S -> A -> S * outcome unit) l s, (forall s x, g s x = g' s x) -> sfold g l s = sfold g' l s.
Proof. intros S A g g'. induction l as [|x l IH]; intros s H; [reflexivity|]. cbn [sfold]. rewrite H. destruct (g' s x) as [s' [[]|e|]]; auto. Qed.

Lemma fmt_disk_analysis : forall f F d d', is_pc f -> wf d (tab F (lc f) (lh f)) ->
  (forall h c, (h < lh f)%N -> (c < lc f)%N -> exists data b, F h c = TBit b /\ fmt_track f (mkCh c h) data b) -> di_analyze d = Ok d' -> clean_analysis f d'.
Proof.
  intros f F d d' Hpc Hwf Hd E. unfold di_analyze in E. destruct (ofold _ _ _) as [a|e|] eqn:Ea in E; cbn [obind] in E; [|discriminate|discriminate].
  pose proof (acc_fold_inv _ _ _ _ _ acc_init_inv Ea) as Hi.
  assert (HS : forall ta, analysed (di_pool d) (track_idx_iter d) ta ->
     ta_data_error ta = false /\ ta_address_error ta = false /\ ta_deleted ta = false /\ ta_no_dam ta = false /\
     ta_sector_ct ta = N.to_nat (l_s (sf_layout f)) /\ ta_consistent_size ta = Some 2%N).
  { intros ta (ti & t & Hti & Hp & Ht). apply iter_in in Hti. destruct Hwf as [_ [H0 H1]].
    assert (Hin : In t (fst (tab F (lc f) (lh f))) \/ In t (snd (tab F (lc f) (lh f)))).
    { apply in_app_or in Hti as [Hti|Hti]; apply In_nth_error in Hti as [k Hk].
      - left. pose proof (map_some_nth _ _ _ k H0) as M. rewrite Hk in M. cbv beta in M. rewrite Hp in M. symmetry in M. eapply nth_error_In; eauto.
      - right. pose proof (map_some_nth _ _ _ k H1) as M. rewrite Hk in M. cbv beta in M. rewrite Hp in M. symmetry in M. eapply nth_error_In; eauto. }
    apply side_in in Hin as (h & c & A & B & ->); [|apply lh_12]. destruct (Hd h c A B) as (dd & b & Eb & Hb). rewrite Eb in Ht. cbn [tk_analysis] in Ht.
    destruct (fmt_analysis f _ _ _ Hpc Hb) as (a' & E' & R). rewrite E' in Ht. injection Ht as <-. exact R. }
  assert (HE : exists ta, analysed (di_pool d) (track_idx_iter d) ta).
  { destruct (layout_facts f Hpc) as (_ & _ & _ & Hc & Hh & _). destruct Hwf as [[_ Hr] [H0 _]].
    destruct (Hd 0%N 0%N Hh Hc) as (dd & b & Eb & Hb). destruct (fmt_analysis f _ _ _ Hpc Hb) as (a' & E' & _).
    pose proof (map_some_nth _ _ _ 0 H0) as M. pose proof (tab_nth (F 0%N) (lc f) 0%N) as T. change (N.to_nat 0) with 0 in T.
    unfold tab in M. cbn [fst] in M. rewrite T in M. destruct (N.ltb_spec 0 (lc f)); [|unfold lc in *; lia].
    destruct (nth_error (di_map0 d) 0) as [ti|] eqn:Em; [|discriminate].
    exists a', ti, (F 0%N 0%N). split; [apply iter_in; apply in_or_app; left; eapply nth_error_In; eauto|]. split; [exact M|]. rewrite Eb. exact E'. }
  destruct HE as [ta0 HE].
  destruct Hi as (A & B & C & D & V & Sp & Nd & Ct & L1 & L2).
  assert (Fa : forall b g, (b = true <-> some_ta (fun ta => False \/ analysed (di_pool d) (track_idx_iter d) ta) g) ->
             (forall ta, analysed (di_pool d) (track_idx_iter d) ta -> g ta = false) -> b = false).
  { intros b g Hb Hg. destruct b; [|reflexivity]. destruct (proj1 Hb eq_refl) as (ta & [[]|X] & _ & Y). rewrite Hg in Y by auto. discriminate. }
  assert (Hv : ac_variable a = false).
  { destruct (ac_variable a); [|reflexivity]. destruct (proj1 V eq_refl) as (ta & [[]|X] & Y). destruct (HS _ X) as (_ & _ & _ & _ & _ & Z). congruence. }
  destruct (HS _ HE) as (_ & _ & _ & _ & Zc & Zs). destruct (layout_facts f Hpc) as (_ & _ & _ & _ & _ & Hs & _).
  assert (Hsp : forall n, In n (ac_spt a) -> n = N.to_nat (l_s (sf_layout f))).
  { intros n Hn. apply Sp in Hn as (_ & ta & [[]|X] & Y). destruct (HS _ X) as (_ & _ & _ & _ & Z & _). congruence. }
  assert (Hone : ac_spt a = [N.to_nat (l_s (sf_layout f))]).
  { assert (Hin : In (N.to_nat (l_s (sf_layout f))) (ac_spt a)) by (apply Sp; split; [lia|exists ta0; auto]).
    destruct (ac_spt a) as [|x [|y l]]; [destruct Hin| |].
    - f_equal. apply Hsp. left. reflexivity.
    - exfalso. inversion Nd as [|? ? Hx _]; subst. apply Hx. rewrite (Hsp x) by (left; auto). rewrite (Hsp y) by (right; left; auto). left. reflexivity. }
  assert (Hlast : ac_last a = 2%N).
  { destruct (N.eq_dec (ac_last a) 0) as [Z|Z].
    - specialize (L2 Z ta0 2%N (or_intror HE) Zs). discriminate.
    - destruct (L1 Z) as (ta & [[]|X] & Y). destruct (HS _ X) as (_ & _ & _ & _ & _ & W). congruence. }
  assert (Hct : ac_ct a = N.to_nat (l_s (sf_layout f))).
  { destruct Ct as [X|[_ X]]; [apply Hsp, X|]. rewrite Hone in X. discriminate. }
  injection E as <-. unfold clean_analysis. cbn. rewrite Hone, Hv, Hlast, Hct. cbn. rewrite N2Nat.id.
  assert (FA : ac_data a = false) by (apply (Fa _ _ A); intros ta X; apply (HS _ X)).
  assert (FB : ac_addr a = false) by (apply (Fa _ _ B); intros ta X; apply (HS _ X)).
  assert (FC : ac_del a = false) by (apply (Fa _ _ C); intros ta X; apply (HS _ X)).
  assert (FD : ac_nodam a = false) by (apply (Fa _ _ D); intros ta X; apply (HS _ X)).
  auto 10.
Qed.

(* what an image of formatted tracks reads *)
Definition holds_track (f : StandardFormat) (ch : DiskCh) (data : N -> list N) (t : DTrack) : Prop := exists b, t = TBit b /\ fmt_track f ch data b.
Lemma fmt_disk_reads : forall f d F content, wf d (tab F (lc f) (lh f)) ->
  (forall h c, (h < lh f)%N -> (c < lc f)%N -> holds_track f (mkCh c h) (content c h) (F h c)) -> disk_reads d f content.
Proof.
  intros f d F content Hwf Hd. assert (Hlh : (lh f <= 2)%N) by (destruct (lh_12 f); lia). unfold disk_reads. fold (lc f) (lh f).
  assert (Hseek : forall c h, (c < lc f)%N -> (h < lh f)%N -> nth_error (side (tab F (lc f) (lh f)) h) (N.to_nat c) = Some (F h c)).
  { intros c h Hc Hh. rewrite side_tab by apply lh_12. destruct (N.ltb_spec c (lc f)); [|lia]. destruct (N.ltb_spec h (lh f)); [|lia]. reflexivity. }
  split; [|split].
  - intros c h s (Hc & Hh & Hs) rnd. destruct (Hd h c Hh Hc) as (b & Eb & Hb).
    destruct (wf_seek d _ (mkCh c h) (F h c) Hwf ltac:(unfold lh in *; cbn; lia) (Hseek c h Hc Hh)) as (ti & Es).
    unfold di_read_sector_basic. rewrite Es. cbn [obind]. change (q_n (sector_query c h s)) with (Some 2%N). rewrite Eb. cbn [tk_read_sector].
    destruct (fmt_read f (mkCh c h) _ b Hb (rnd_bit rnd) s false Hs (Some 2%N) (or_intror eq_refl)) as (r & Er & Q1 & Q2 & Q3 & Q4 & Q5).
    cbn [ch_c ch_h] in Er. rewrite Er. cbn [obind]. rewrite Q1, Q2, Q3. cbn [orb]. exact Q5.
  - intros c h Hc Hh. exists (F h c). split; [rewrite (wf_shows _ _ Hwf) by lia; f_equal; auto|].
    destruct (Hd h c Hh Hc) as (b & -> & (std & ss & B & G & _ & _ & Hids & _)). cbn [tk_sector_list]. unfold bt_sector_list.
    rewrite (g_meta _ _ _ _ _ G), items_sector_list. f_equal. rewrite <- (map_map fs_id (fun i => mkEntry i (mkAttr false false false false))), Hids.
    unfold format_ids. rewrite map_map. apply map_ext. intros s. cbn [ch_c ch_h].
    assert (E : bytes_to_n (l_size (sf_layout f)) = 2%N) by (destruct f; vm_compute; reflexivity). rewrite E. reflexivity.
  - intros c h Hout rnd q. unfold di_read_sector_basic. rewrite (wf_seek_none d _ (mkCh c h) Hwf); [reflexivity|]. cbn [ch_c ch_h].
    rewrite side_tab by apply lh_12. destruct (N.ltb_spec c (lc f)); destruct (N.ltb_spec h (lh f)); cbn [andb]; try reflexivity. unfold lc, lh in *. lia.
Qed.

Definition boot_result (boot : option (list N)) (f : StandardFormat) (creator : option (list N)) : outcome BootSector :=
  let! b := boot_new (boot_of boot) in
  let! b := boot_update b f in
  match creator with Some c => boot_set_creator b c | None => Ok b end.

Theorem format_main : forall rnd d f boot creator b, is_pc f -> (di_res d = [] \/ di_res d = [RBitStream]) ->
  boot_result boot f creator = Ok b -> length (bs_buf b) = 512 -> bytes_ok (bs_buf b) = true ->
  exists d', di_format rnd d f RBitStream Fat12 boot creator = (d', Ok tt) /\
    disk_reads d' f (fun c h s => if ((c =? 0) && (h =? 0) && (s =? 1))%N then bs_buf b else zeros) /\ clean_analysis f d' /\
    di_geom d' = di_geom (reset_image d) /\ (forall rnd', read_boot_sector rnd' d' = Ok (bs_buf b)) /\
    exists F, wf d' (tab F (lc f) (lh f)) /\ forall h c, (h < lh f)%N -> (c < lc f)%N ->
      holds_track f (mkCh c h) (fun s => if ((c =? 0) && (h =? 0) && (s =? 1))%N then bs_buf b else zeros) (F h c).
Proof.
  intros rnd d f boot creator b Hpc Hres Hb Hlb Hbb.
  destruct (format_add f (reset_image d) Hpc eq_refl eq_refl eq_refl) as (d1 & F1 & E1 & R1 & W1 & Hr1); [split; [reflexivity|exact Hres]|].
  destruct (layout_facts f Hpc) as (_ & _ & _ & Hc0 & Hh0 & Hs0 & _).
  assert (Hne : heads_cylinders (sf_layout f) <> []).
  { intros Hn. assert (Hi : In (mkCh 0 0) (heads_cylinders (sf_layout f))) by (apply heads_in; cbn; lia). rewrite Hn in Hi. destruct Hi. }
  destruct (format_all rnd f Hpc (heads_cylinders (sf_layout f)) d1 F1 (heads_nodup _)) as (d0 & d2 & F2 & E2 & Ea & W0 & W2 & Hd2); auto.
  { intros [c h] Hi. apply heads_in in Hi as [A B]. cbn [ch_c ch_h] in *. split; [exact A|]. split; [exact B|]. apply Hr1; auto. }
  { intros h c A B. destruct (Hr1 h c A B) as (x & Ex & Hx). exists x. auto. }
  { intros h c A B Hn. exfalso. apply Hn, heads_in. cbn. auto. }
  destruct (Hd2 0%N 0%N Hh0 Hc0) as (t0 & Et0 & Ht0).
  destruct (wf_seek d2 _ (mkCh 0 0) (TBit t0) W2 ltac:(cbn; lia)) as (ti & Es).
  { cbn [ch_h ch_c]. rewrite side_tab by apply lh_12. unfold lc, lh. destruct (N.ltb_spec 0 (l_c (sf_layout f))); [|lia]. destruct (N.ltb_spec 0 (l_h (sf_layout f))); [|lia]. cbn [andb]. congruence. }
  destruct (fmt_write f (mkCh 0 0) _ t0 Ht0 1%N (bs_buf b) ltac:(lia) Hlb Hbb) as (t1 & w & Ew & _ & Ht1).
  pose proof (replace_wf d2 _ (mkCh 0 0) ti _ (TBit t1) W2 Es) as W3. rewrite replace_tab in W3 by (auto; apply lh_12).
  set (d3 := with_pool d2 (upd (di_pool d2) ti (TBit t1))) in *. exists d3.
  assert (HT : forall h c, (h < lh f)%N -> (c < lc f)%N ->
      holds_track f (mkCh c h) (fun s => if ((c =? 0) && (h =? 0) && (s =? 1))%N then bs_buf b else zeros) (if ((h =? 0) && (c =? 0))%N then TBit t1 else F2 h c)).
  { intros h c A B.
    destruct (N.eqb_spec h 0) as [->|Hh]; cbn [andb].
    + destruct (N.eqb_spec c 0) as [->|Hc]; cbn [andb].
      * exists t1. split; [reflexivity|]. exact Ht1.
      * destruct (Hd2 0%N c A B) as (x & Ex & Hx). exists x. auto.
    + destruct (Hd2 h c A B) as (x & Ex & Hx). exists x. split; [exact Ex|]. rewrite andb_false_r. exact Hx. }
  split; [|split; [|split; [|split; [|split]]]].
  - unfold di_format. fold (boot_of boot). unfold boot_result in Hb. rewrite Hb.
    rewrite (sfold_ext _ (add_step f)) by reflexivity. rewrite E1.
    rewrite (sfold_ext _ (fmt_step rnd f)) by reflexivity. rewrite E2.
    unfold write_boot_sector, di_write_sector. rewrite Es. cbn [obind tk_write_sector]. cbn [ch_c ch_h] in Ew. unfold sector_query in Ew. rewrite Ew. reflexivity.
  - eapply fmt_disk_reads; [exact W3|]. exact HT.
  - assert (Hca : clean_analysis f d2) by (refine (fmt_disk_analysis f F2 d0 d2 Hpc W0 _ Ea); intros h c A B; destruct (Hd2 h c A B) as (x & Ex & Hx); eauto). exact Hca.
  - assert (G : forall l s s', sfold (add_step f) l s = (s', Ok tt) -> di_geom s' = di_geom s).
    { induction l as [|x l IH]; intros s s' H; cbn [sfold] in H; [congruence|]. unfold add_step in H at 1.
      destruct (add_empty_track s x _ _ _) as [s1 r] eqn:Ex. destruct r as [u|e|]; cbn [omap obind] in H; try discriminate.
      apply IH in H. rewrite H. unfold add_empty_track in Ex.
      repeat match type of Ex with context [if ?c then _ else _] => destruct c | context [match ?c with _ => _ end] => destruct c end; inversion Ex; subst; reflexivity. }
    assert (G2 : forall l s s', sfold (fmt_step rnd f) l s = (s', Ok tt) -> di_geom s' = di_geom s).
    { induction l as [|x l IH]; intros s s' H; cbn [sfold] in H; [congruence|]. unfold fmt_step in H at 1.
      destruct (di_format_track _ _ _ _ _ _) as [s1|e|] eqn:Ex; cbn [keeps] in H; try discriminate.
      apply IH in H. rewrite H. unfold di_format_track in Ex. destruct (seek_track s x) as [[i t]|e|]; cbn [obind] in Ex; try discriminate.
      destruct (tk_format _ _ _ _ _ _) as [t'|e|]; cbn [obind] in Ex; try discriminate.
      unfold di_analyze in Ex. destruct (ofold _ _ _) as [a|e|] in Ex; cbn [obind] in Ex; try discriminate. injection Ex as <-. reflexivity. }
    change (di_geom d3) with (di_geom d2). rewrite (G2 _ _ _ E2), (G _ _ _ E1). reflexivity.
  - intros rnd'. destruct (seek_track_inv _ _ _ _ _ W2 Es) as (_ & _ & Hm & Hp). cbn [ch_h ch_c] in Hm. change (0 =? 0)%N with true in Hm. cbn iota in Hm.
    change (N.to_nat 0) with 0 in Hm. unfold read_boot_sector, d3. cbn [with_pool di_map0 di_pool]. destruct (di_map0 d2) as [|x l]; [discriminate|].
    cbn [nth_error] in Hm. injection Hm as ->. unfold oindex. rewrite nth_error_upd_same by (apply nth_error_Some; congruence). cbn [obind tk_read_sector].
    destruct (fmt_read f (mkCh 0 0) _ t1 Ht1 (rnd_bit rnd') 1%N true ltac:(lia) None (or_introl eq_refl)) as (r & Er & _ & _ & _ & _ & Q). cbn [ch_c ch_h] in Er. unfold sector_query in Er.
    rewrite Er. cbn [obind]. rewrite Q. rewrite N.eqb_refl. reflexivity.
  - eexists. split; [exact W3|]. exact HT.
Qed.

Lemma nth_firstn_lt : forall {A} (l : list A) n j, j < n -> nth_error (firstn n l) j = nth_error l j.
Proof. intros A l n j H. rewrite nth_error_firstn. destruct (Nat.ltb_spec j n); [reflexivity|lia]. Qed.
Lemma slice_ext : forall (a b : list N) o k, (forall i, o <= i < o + k -> nth_error a i = nth_error b i) -> slice a o k = slice b o k.
Proof.
  intros a b o k H. apply list_eq_nth_error. intros i. unfold slice. rewrite !nth_error_firstn, !nth_error_skipn.
  destruct (Nat.ltb_spec i k); [apply H; lia|reflexivity].
Qed.
Lemma boot_result_ok : forall boot f creator, is_pc f -> (512 <= length (boot_of boot)) -> bytes_ok (boot_of boot) = true -> accepts_creator (boot_of boot) creator ->
  exists b, boot_result boot f creator = Ok b /\ boot_for (boot_of boot) f creator (bs_buf b) /\ bytes_ok (bs_buf b) = true.
Proof.
  intros boot f creator Hpc Hl Hb Hcr. set (T := boot_of boot) in *.
  destruct (boot_new_ok T Hl) as (b & E & _ & _ & Eb & Lb). destruct (pc_bpb f Hpc) as (x & y & Hx & Hy & _ & _).
  destruct (splice_bpb (bs_buf b) x y ltac:(lia)) as (A & A2 & A3 & D).
  assert (Dn := spliced_describes (bs_buf b) f x y ltac:(lia) Hpc Hx Hy).
  unfold boot_result. fold T. rewrite E. cbn [obind]. unfold boot_update. rewrite Hx, Hy. cbn [obind].
  set (W := splice (bs_buf b) BPB_OFFSET (bpb2_write x ++ bpb3_write y)) in *.
  assert (Bw : bytes_ok W = true).
  { unfold W, splice. rewrite !bytes_ok_app. 
    assert (Hbb : bytes_ok (bs_buf b) = true) by (rewrite Eb; exact (bytes_ok_slice T 0 512 Hb)).
    rewrite !andb_true_iff. split; [|split].
    - exact (bytes_ok_slice (bs_buf b) 0 _ Hbb).
    - split; [unfold bpb2_write|unfold bpb3_write]; rewrite !bytes_ok_app, !le_bytes_ok; reflexivity.
    - match goal with |- bytes_ok (skipn ?n ?l) = true => replace (skipn n l) with (slice l n (length l)) end; [apply bytes_ok_slice, Hbb|].
      unfold slice. apply firstn_all2. rewrite skipn_length. lia. }
  assert (HT : forall i, i < 512 -> nth_error (bs_buf b) i = nth_error T i) by (intros i Hi; rewrite Eb; apply nth_firstn_lt; lia).
  destruct creator as [c|].
  - destruct Hcr as (Lc & Bc & Sc). unfold boot_set_creator. cbn [bs_buf bs_bpb2 bs_bpb3 bs_marker].
    assert (Es : slice W CREATOR_OFFSET 8 = FLUXFOX_CREATOR).
    { rewrite <- Sc. apply slice_ext. unfold CREATOR_OFFSET. intros i Hi. rewrite D by (clear - Hi; lia). apply HT. clear - Hi; lia. }
    rewrite Es. assert (Er : list_eqb FLUXFOX_CREATOR FLUXFOX_CREATOR = true) by (vm_compute; reflexivity). rewrite Er.
    eexists. split; [reflexivity|]. cbn [bs_buf].
    assert (Ls : length (splice W CREATOR_OFFSET c) = 512) by (rewrite splice_length; unfold CREATOR_OFFSET; lia).
    assert (Nt : forall i, nth_error (splice W CREATOR_OFFSET c) i = if (CREATOR_OFFSET <=? i) && (i <? CREATOR_OFFSET + length c) then nth_error c (i - CREATOR_OFFSET) else nth_error W i).
    { intros i. apply nth_error_splice. unfold CREATOR_OFFSET. lia. }
    rewrite Lc in Nt.
    split; [split; [exact Ls|split; [|split]]|].
    + destruct Dn as (b' & Eb' & V1 & V2 & V3 & V4). unfold describes.
      destruct (boot_new_ok (splice W CREATOR_OFFSET c) ltac:(lia)) as (b2 & E2 & P2 & P3 & _). exists b2. split; [exact E2|].
      destruct (boot_new_inv _ _ Eb') as (_ & Q2 & Q3 & _).
      assert (Sl : forall o k, o + k <= CREATOR_OFFSET -> slice (splice W CREATOR_OFFSET c) o k = slice W o k).
      { intros o k Hok. apply slice_ext. intros i Hi. rewrite Nt. destruct (Nat.leb_spec CREATOR_OFFSET i) as [Hx'|_]; [clear - Hok Hi Hx'; lia|reflexivity]. }
      rewrite Sl in P2 by (unfold BPB_OFFSET, CREATOR_OFFSET; lia). rewrite Sl in P3 by (unfold BPB_OFFSET, CREATOR_OFFSET; lia).
      rewrite <- P2 in Q2. rewrite <- P3 in Q3. unfold boot_has_valid_bpb, boot_standard_format in *. rewrite <- Q2, <- Q3. auto.
    + intros c' Ec'. injection Ec' as <-. pose proof (slice_splice_same W CREATOR_OFFSET c) as Q. rewrite Lc in Q. apply Q. unfold CREATOR_OFFSET. lia.
    + intros i Hi H1 H2. rewrite Nt. destruct H2 as [H2|H2]; [discriminate|]. unfold CREATOR_OFFSET.
      destruct (Nat.leb_spec 327 i); destruct (Nat.ltb_spec i (327 + 8)); cbn [andb]; try (exfalso; apply H2; lia).
      all: rewrite D by lia; apply HT, Hi.
    + unfold splice. rewrite !bytes_ok_app, Bc. cbn [andb].
      rewrite (bytes_ok_slice W 0 CREATOR_OFFSET Bw : bytes_ok (firstn CREATOR_OFFSET W) = true). cbn [andb].
      match goal with |- bytes_ok (skipn ?n ?l) = true => replace (skipn n l) with (slice l n (length l)) end; [apply bytes_ok_slice, Bw|].
      unfold slice. apply firstn_all2. rewrite skipn_length. lia.
  - eexists. split; [reflexivity|]. cbn [bs_buf]. split; [|exact Bw]. split; [lia|]. split; [exact Dn|]. split; [discriminate|].
    intros i Hi H1 _. rewrite D by lia. apply HT, Hi.
Qed.


Lemma head_track : forall d t, di_track d (mkCh 0 0) = Ok (Some t) -> exists ti l, di_map0 d = ti :: l /\ nth_error (di_pool d) ti = Some t.
Proof.
  intros d t H. unfold di_track in H. cbn [ch_h ch_c head_map obind] in H. change (N.to_nat 0) with 0 in H.
  destruct (di_map0 d) as [|ti l]; cbn [nth_error] in H; [discriminate|]. injection H as H. eauto.
Qed.
Lemma reset_res : forall d, di_res (reset_image d) = di_res d. Proof. reflexivity. Qed.

Theorem format_theorem : forall rnd d f boot creator, is_pc f -> (di_res d = [] \/ di_res d = [RBitStream]) ->
  (512 <= length (boot_of boot)) -> bytes_ok (boot_of boot) = true -> accepts_creator (boot_of boot) creator ->
  exists d' B, di_format rnd d f RBitStream Fat12 boot creator = (d', Ok tt) /\
    boot_for (boot_of boot) f creator B /\ disk_reads d' f (fresh_content B) /\ clean_analysis f d' /\
    (forall rnd', read_boot_sector rnd' d' = Ok B).
Proof.
  intros rnd d f boot creator Hpc Hr Hl Hb Hc. destruct (boot_result_ok boot f creator Hpc Hl Hb Hc) as (b & Eb & Hf & Hbb).
  destruct (format_main rnd d f boot creator b Hpc Hr Eb (proj1 Hf) Hbb) as (d' & E & Hd & Ha & _ & Hboot & _).
  exists d', (bs_buf b). split; [exact E|]. split; [exact Hf|]. split; [exact Hd|]. split; [exact Ha|]. exact Hboot.
Qed.
Theorem format_geometry : forall rnd d f boot creator d', is_pc f -> (di_res d = [] \/ di_res d = [RBitStream]) ->
  (512 <= length (boot_of boot)) -> bytes_ok (boot_of boot) = true -> accepts_creator (boot_of boot) creator ->
  di_format rnd d f RBitStream Fat12 boot creator = (d', Ok tt) -> di_geom d' = di_geom d.
Proof.
  intros rnd d f boot creator d1 Hpc Hr Hl Hb Hc E1. destruct (boot_result_ok boot f creator Hpc Hl Hb Hc) as (b & Eb & Hf & Hbb).
  destruct (format_main rnd d f boot creator b Hpc Hr Eb (proj1 Hf) Hbb) as (d' & E & _ & _ & G & _).
  rewrite E1 in E. injection E as ->. exact G.
Qed.
Lemma list_eqb_eq : forall a b, list_eqb a b = true <-> a = b.
Proof.
  induction a as [|x a IH]; intros [|y b]; cbn [list_eqb]; split; intros H; try discriminate; auto.
  - apply andb_prop in H as [A B]. apply N.eqb_eq in A. apply IH in B. congruence.
  - injection H as -> ->. rewrite N.eqb_refl. apply IH. reflexivity.
Qed.
Theorem creator_refused : forall rnd d f res boot c, is_pc f -> (512 <= length boot) -> slice boot 0x147 8 <> FLUXFOX_CREATOR ->
  snd (di_format rnd d f res Fat12 (Some boot) (Some c)) = Err IncompatibleImage.
Proof.
  intros rnd d f res boot c Hpc Hl Hs. unfold di_format.
  destruct (boot_new_ok boot Hl) as (b & E & _ & _ & Eb & Lb). destruct (pc_bpb f Hpc) as (x & y & Hx & Hy & _ & _).
  destruct (splice_bpb (bs_buf b) x y ltac:(lia)) as (A & A2 & A3 & D).
  rewrite E. cbn [obind]. unfold boot_update. rewrite Hx, Hy. cbn [obind]. unfold boot_set_creator. cbn [bs_buf].
  set (W := splice (bs_buf b) BPB_OFFSET (bpb2_write x ++ bpb3_write y)) in *.
  assert (Es : slice W CREATOR_OFFSET 8 = slice boot 0x147 8).
  { apply slice_ext. unfold CREATOR_OFFSET. intros i Hi. rewrite D by (clear - Hi; lia). rewrite Eb. apply nth_firstn_lt. clear - Hi; lia. }
  destruct (list_eqb (slice W CREATOR_OFFSET 8) FLUXFOX_CREATOR) eqn:Eq; [|reflexivity].
  exfalso. apply Hs. rewrite <- Es. apply list_eqb_eq, Eq.
Qed.
Theorem failed_format : forall rnd d res boot creator,
  (forall f, ~ is_pc f -> (512 <= length (boot_of boot)) -> di_format rnd d f res Fat12 boot creator = (reset_image d, Err UnsupportedFormat)) /\
  (forall f, (length (boot_of boot) < 512) -> di_format rnd d f res Fat12 boot creator = (reset_image d, Err IoError)) /\
  (forall f, is_pc f -> (512 <= length (boot_of boot)) -> accepts_creator (boot_of boot) creator -> di_res d = [RMetaSector] \/ di_res d = [RFluxStream] ->
     exists e, di_format rnd d f RBitStream Fat12 boot creator = (reset_image d, Err e)) /\
  forall ch, di_track (reset_image d) ch <> Panic -> di_track (reset_image d) ch = Ok None.
Proof.
  intros rnd d res boot creator. split; [|split; [|split]].
  - intros f Hn Hl. unfold di_format. fold (boot_of boot). destruct (boot_new_ok _ Hl) as (b & E & _). rewrite E. cbn [obind].
    assert (Hf : boot_update b f = Err UnsupportedFormat).
    { destruct f; try reflexivity; exfalso; apply Hn; split; discriminate. }
    rewrite Hf. reflexivity.
  - intros f Hl. unfold di_format. fold (boot_of boot).
    assert (E : boot_new (boot_of boot) = Err IoError) by (unfold boot_new; destruct (Nat.ltb_spec (length (boot_of boot)) 512); [reflexivity|lia]).
    rewrite E. reflexivity.
  - intros f Hpc Hl Hc Hr. unfold di_format. fold (boot_of boot). destruct (boot_new_ok _ Hl) as (b & E & _ & _ & Eb & Lb). rewrite E. cbn [obind].
    destruct (pc_bpb f Hpc) as (x & y & Hx & Hy & _ & _). unfold boot_update. rewrite Hx, Hy. cbn [obind].
    assert (Hd : exists b', match creator with Some c => boot_set_creator (mkBoot x y (bs_marker b) (splice (bs_buf b) BPB_OFFSET (bpb2_write x ++ bpb3_write y))) c
                                     | None => Ok (mkBoot x y (bs_marker b) (splice (bs_buf b) BPB_OFFSET (bpb2_write x ++ bpb3_write y))) end = Ok b' ).
    { destruct creator as [c|]; [|eauto]. destruct Hc as (_ & _ & Sc). unfold boot_set_creator. cbn [bs_buf].
      destruct (splice_bpb (bs_buf b) x y ltac:(lia)) as (A & A2 & A3 & D).
      set (W := splice (bs_buf b) BPB_OFFSET (bpb2_write x ++ bpb3_write y)) in *.
      assert (Es : slice W CREATOR_OFFSET 8 = slice (boot_of boot) 0x147 8).
      { apply slice_ext. unfold CREATOR_OFFSET. intros i Hi. rewrite D by (clear - Hi; lia). rewrite Eb. apply nth_firstn_lt. clear - Hi; lia. }
      rewrite Es, Sc. eexists. assert (Er : list_eqb FLUXFOX_CREATOR FLUXFOX_CREATOR = true) by (vm_compute; reflexivity). rewrite Er. reflexivity. }
    destruct Hd as (b' & Eb'). rewrite Eb'.
    destruct (layout_facts f Hpc) as (_ & _ & _ & Hc0 & Hh0 & _).
    assert (Hne : exists ch l, heads_cylinders (sf_layout f) = ch :: l /\ (ch_h ch < 2)%N).
    { destruct (heads_cylinders (sf_layout f)) as [|ch l] eqn:Eh.
      - exfalso. assert (Hi : In (mkCh 0 0) (heads_cylinders (sf_layout f))) by (apply heads_in; cbn; lia). rewrite Eh in Hi. destruct Hi.
      - exists ch, l. split; [reflexivity|]. assert (Hi : In ch (heads_cylinders (sf_layout f))) by (rewrite Eh; left; reflexivity).
        apply heads_in in Hi. destruct (lh_12 f); unfold lh in *; lia. }
    destruct Hne as (ch & l & -> & Hh). cbn [sfold]. unfold add_empty_track. destruct (N.leb_spec 2 (ch_h ch)); [lia|].
    assert (Hrej : res_rejects (reset_image d) RBitStream = true) by (unfold res_rejects; cbn [reset_image di_multires di_res]; destruct Hr as [-> | ->]; reflexivity).
    rewrite Hrej. cbn [omap obind]. eexists. reflexivity.
  - intros [c h] Hp. unfold di_track in *. cbn [ch_h ch_c] in *. destruct h as [|[p|p|]]; cbn [head_map reset_image di_map0 di_map1 obind] in *; try congruence;
      destruct (N.to_nat c); reflexivity.
Qed.
