(* Builder_proofs.v - blank and formatted images made by the builder. *)
From Coq Require Import List.
From Verif Require Import Base Base_lemmas Chs_model Chs_spec Chs_proofs BitRing_model Mfm_model Mfm_spec Types_model System34_model System34_spec
  BitStream_model BitStream_spec Stream_proofs Marker_proofs S34_layout_proofs S34_format_proofs S34_scan_proofs S34_meta_proofs S34_track_proofs
  DiskImage_model DiskImage_spec DiskImage_proofs DiskImage2_proofs Format_model Format_spec Format_proofs Format2_proofs Format3_proofs
  SectorView_model SectorView_spec SectorView_proofs SectorView2_proofs Raw_model Raw_spec Raw_proofs Raw2_proofs Raw3_proofs Builder_model Builder_spec.
Import ListNotations.

(* ---- two formatted tracks of different cylinders have different cells ---- *)
Lemma first_mark_le : forall std std' g g' s ss ss' l B B', S34_format_proofs.holds std g (s :: ss) l B -> S34_format_proofs.holds std' g' ss' l B' ->
  length (preamble std') <= length (preamble std).
Proof.
  intros std std' g g' s ss ss' l B B' H H'.
  assert (Hin : In (Idam, idam_at (length (preamble std))) (track_marks std g (s :: ss))).
  { unfold track_marks, track_slots. apply in_or_app. right. cbn [slots flat_map]. left. reflexivity. }
  destruct (holds_mark_win _ _ _ _ _ H _ _ Hin) as [Hl Hw].
  assert (Ho : occurs l A1_MASK A1_PAT (16 * idam_at (length (preamble std)))) by (split; [exact Hl|rewrite Hw; reflexivity]).
  destruct (holds_a1 _ _ _ _ _ H' _ Ho) as (o & Hi & E). apply (incr_in _ _ _ _ (holds_incr _ _ _)) in Hi.
  unfold idam_at in E. clear - E Hi. lia.
Qed.
Lemma fmt_cells_differ : forall f ch ch' data data' t t', is_pc f -> fmt_track f ch data t -> fmt_track f ch' data' t' ->
  (ch_c ch < 256)%N -> (ch_c ch' < 256)%N -> ch_c ch <> ch_c ch' -> mfm_data (bt_data t) <> mfm_data (bt_data t').
Proof.
  intros f ch ch' data data' t t' Hf (std & ss & B & G & _ & _ & Hids & _) (std' & ss' & B' & G' & _ & _ & Hids' & _) Hc Hc' Hne E.
  pose proof (g_holds _ _ _ _ _ G) as H. pose proof (g_holds _ _ _ _ _ G') as H'. rewrite <- E in H'.
  destruct (layout_facts f Hf) as (_ & _ & _ & _ & _ & Hs & _).
  assert (Hn : forall x xs ch, map fs_id (x :: xs) = format_ids f ch -> (fs_id x) = mkChsn (mkChs (ch_c ch) (ch_h ch) 1) 2).
  { intros x xs c0 Hx. pose proof (format_ids_nth f c0 0) as Hf0. destruct (Nat.ltb_spec 0 (N.to_nat (l_s (sf_layout f)))); [|lia].
    rewrite <- Hx in Hf0. cbn [map nth_error] in Hf0. injection Hf0 as Hf0. exact Hf0. }
  assert (Hd : forall ss ch, map fs_id ss = format_ids f ch -> ss <> []).
  { intros s0 c0 Hx ->. apply (f_equal (@length _)) in Hx. rewrite format_ids_length in Hx. cbn in Hx. lia. }
  destruct ss as [|x ss]; [exact (Hd _ _ Hids eq_refl)|]. destruct ss' as [|x' ss']; [exact (Hd _ _ Hids' eq_refl)|].
  assert (Hp : length (preamble std) = length (preamble std')).
  { apply Nat.le_antisymm; [exact (first_mark_le _ _ _ _ _ _ _ _ _ _ H' H)|exact (first_mark_le _ _ _ _ _ _ _ _ _ _ H H')]. }
  apply Hn in Hids. apply Hn in Hids'.
  pose proof (h_header _ _ _ _ _ H 0 _ x eq_refl) as A. pose proof (h_header _ _ _ _ _ H' 0 _ x' eq_refl) as A'.
  apply (f_equal (fun l => nth_error l 4)) in A. apply (f_equal (fun l => nth_error l 4)) in A'. rewrite nth_slice_gen in A, A'.
  rewrite Hids in A. rewrite Hids' in A'. unfold header_field, with_crc in A, A'. unfold chsn_c in A, A'. cbn -[N.modulo length preamble] in A, A'.
  rewrite <- Hp in A'.
  rewrite (carries_byte _ B B' _ (h_carries _ _ _ _ _ H) (h_carries _ _ _ _ _ H') (h_bytes _ _ _ _ _ H) (h_bytes _ _ _ _ _ H')) in A.
  - rewrite A in A'. injection A' as A'. rewrite !N.mod_small in A' by assumption. contradiction.
  - apply nth_error_Some. congruence.
Qed.
Lemma fmt_pack_differ : forall f ch ch' data data' t t', is_pc f -> fmt_track f ch data t -> fmt_track f ch' data' t' ->
  (ch_c ch < 256)%N -> (ch_c ch' < 256)%N -> ch_c ch <> ch_c ch' -> pack (mfm_data (bt_data t)) <> pack (mfm_data (bt_data t')).
Proof.
  intros f ch ch' data data' t t' Hf Hx Hy Hc Hc' Hne P. refine (fmt_cells_differ f ch ch' data data' t t' Hf Hx Hy Hc Hc' Hne _).
  apply pack_inj; [|exact P].
  destruct Hx as (std & ss & B & Gx & _). destruct Hy as (std' & ss' & B' & Gy & _).
  destruct (h_carries _ _ _ _ _ (g_holds _ _ _ _ _ Gx)) as [Lx _]. destruct (h_carries _ _ _ _ _ (g_holds _ _ _ _ _ Gy)) as [Ly _].
  apply (f_equal (@length N)) in P. unfold pack in P. rewrite !map_length, !seq_length, Lx, Ly in P. rewrite Lx, Ly.
  clear - P. replace (16 * length B + 7) with (7 + (2 * length B) * 8) in P by lia. replace (16 * length B' + 7) with (7 + (2 * length B') * 8) in P by lia.
  rewrite !Nat.div_add in P by lia. lia.
Qed.

(* ---- post-load processing of a formatted disk ---- *)
Lemma post_formatted : forall sha1 rnd f d F flat, is_pc f -> N.of_nat (length flat) = sf_disk_size f -> wf d (tab F (lc f) (lh f)) -> di_geom d = sf_ch f ->
  (forall h c, (h < lh f)%N -> (c < lc f)%N -> holds_track f (mkCh c h) (fun s => sector_at flat (sector_no f c h s)) (F h c)) ->
  (l_c (sf_layout f) = 80%N -> some_pair_told_apart sha1 d) ->
  exists d', post_load_process sha1 rnd d = Ok (d', boot_field (sector_at flat 0)) /\ saveable f d' flat /\ clean_analysis f d'.
Proof.
  intros sha1 rnd f d F flat Hf Hlen W G HT Hpair.
  destruct (layout_facts f Hf) as (_ & _ & _ & Hc & Hh & Hs & _).
  assert (N : normalize (track_hash sha1 rnd) d = Ok d).
  { apply (normalize_keep _ d _ W).
    - intros t Ht. apply (or_introl (B := In t (snd (tab F (lc f) (lh f))))) in Ht. apply side_in in Ht as (h & c & A & B & ->); [|apply lh_12].
      destruct (HT h c A B) as (b & -> & Hi). exists (bt_sector_ct b). split; [reflexivity|]. rewrite (fmt_sector_ct _ _ _ _ Hi). lia.
    - assert (L : length (fst (tab F (lc f) (lh f))) = N.to_nat (lc f)).
      { change (fst (tab F (lc f) (lh f))) with (side (tab F (lc f) (lh f)) 0). apply tab_side_length; [apply lh_12|exact Hh]. }
      destruct (cylinders f Hf) as [C|C]; [left; rewrite L, C; reflexivity|right]. split; [rewrite L, C; reflexivity|].
      destruct (Hpair C) as (k & a & b & Hk & H0 & H1 & Hne).
      rewrite (head0_tab d F _ _ _ W) in H0 by (rewrite C; lia). rewrite (head0_tab d F _ _ _ W) in H1 by (rewrite C; lia).
      injection H0 as H0. injection H1 as H1.
      exists (N.to_nat k), (TBit a), (TBit b). change (fst (tab F (lc f) (lh f))) with (side (tab F (lc f) (lh f)) 0).
      assert (X : forall c, (c < lc f)%N -> nth_error (side (tab F (lc f) (lh f)) 0) (N.to_nat c) = Some (F 0%N c)).
      { intros c A. rewrite side_tab by apply lh_12. assert (A' : (0 < lh f)%N) by exact Hh. rewrite (proj2 (N.ltb_lt _ _) A), (proj2 (N.ltb_lt _ _) A'). reflexivity. }
      split; [|split].
      + replace (2 * N.to_nat k) with (N.to_nat (2 * k)) by lia. rewrite X by (rewrite C; lia). congruence.
      + replace (2 * N.to_nat k + 1) with (N.to_nat (2 * k + 1)) by lia. rewrite X by (rewrite C; lia). congruence.
      + cbn [track_hash]. unfold bit_hash. apply Hne.
        destruct (HT 0%N (2 * k)%N Hh ltac:(rewrite C; lia)) as (x & Ex & Hx). destruct (HT 0%N (2 * k + 1)%N Hh ltac:(rewrite C; lia)) as (y & Ey & Hy).
        assert (x = a) by congruence. assert (y = b) by congruence. subst x y.
        refine (fmt_pack_differ f _ _ _ _ a b Hf Hx Hy _ _ _); cbn [ch_c]; lia. }
  assert (Hna : forall t, In t (fst (tab F (lc f) (lh f))) \/ In t (snd (tab F (lc f) (lh f))) -> tk_analysis t <> Panic).
  { intros t Ht. apply side_in in Ht as (h & c & A & B & ->); [|apply lh_12]. destruct (HT h c A B) as (b & -> & Hi). cbn [tk_analysis].
    destruct (fmt_analysis f _ _ _ Hf Hi) as (a & -> & _). discriminate. }
  destruct (analyze_ok d _ W Hna) as (d' & Ea). destruct (analyze_rest _ _ Ea) as (P1 & P2 & P3 & P4).
  assert (W' : wf d' (tab F (lc f) (lh f))) by (eapply wf_ext; [..|exact W]; assumption).
  assert (Hst : fmt_store f d' flat) by (split; [exact Hf|split; [exact Hlen|exists F; auto]]).
  assert (Hca : clean_analysis f d').
  { refine (fmt_disk_analysis f F d d' Hf W _ Ea). intros h c A B. destruct (HT h c A B) as (b & Eb & Hi). eauto. }
  exists d'. split; [|split; [split; [exact Hst|split; [apply Hca|congruence]]|exact Hca]].
  unfold post_load_process. rewrite N. cbn [obind]. rewrite Ea. cbn [obind].
  assert (Eb : read_boot_sector rnd d' = Ok (sector_at flat 0)).
  { unfold read_boot_sector. pose proof (head0_tab d' F _ _ 0%N W' Hc) as H0. destruct (HT 0%N 0%N Hh Hc) as (b & Eb & Hi).
    unfold head0 in H0. destruct (di_track d' (mkCh 0 0)) as [o|e|] eqn:Et; try discriminate. subst o.
    destruct (head_track d' _ Et) as (ti & l & Em & Ep). rewrite Em. unfold oindex. rewrite Ep. cbn [obind]. rewrite Eb. cbn [tk_read_sector].
    destruct (fmt_read f (mkCh 0 0) _ b Hi (rnd_bit rnd) 1%N true ltac:(lia) None (or_introl eq_refl)) as (r & Er & _ & _ & _ & _ & Q). cbn [ch_c ch_h] in Er. unfold sector_query in Er.
    rewrite Er. cbn [obind]. rewrite Q. do 2 f_equal. }
  rewrite Eb. unfold boot_field. unfold boot_new. destruct (_ <? 512); reflexivity.
Qed.

(* ---- the empty tracks ---- *)
Lemma add_geom : forall d ch r n k d' x, add_empty_track d ch r n k = (d', x) -> di_geom d' = di_geom d /\ di_analysis d' = di_analysis d.
Proof.
  intros d ch r n k d' x E. unfold add_empty_track in E.
  repeat match type of E with context [if ?c then _ else _] => destruct c | context [match ?c with _ => _ end] => destruct c end; inversion E; subst; auto.
Qed.
Definition fstep (f : StandardFormat) (d : DiskImage) (ch : DiskCh) : outcome DiskImage :=
  let (d', r) := add_empty_track d ch (Some RBitStream) (N.to_nat (sf_bitcell_ct f)) (Some false) in let! _ := r in Ok d'.
Lemma fold_pair : forall f l d d' (rest rest' : list N), ofold (fun '(d, rest) ch => let! d := fstep f d ch in Ok (d, skipn 0 rest)) l (d, rest) = Ok (d', rest') ->
  ofold (fstep f) l d = Ok d'.
Proof.
  intros f. induction l as [|x l IH]; intros d d' rest rest' H; cbn [ofold] in *; [congruence|].
  destruct (fstep f d x) as [d1|e|]; cbn [obind] in *; try discriminate. exact (IH _ _ _ _ H).
Qed.
Lemma even_mod2 : forall i, (i mod 2 =? 0) = Nat.even i.
Proof. intros i. rewrite <- Nat.bit0_mod, Nat.bit0_odd, <- Nat.negb_odd. destruct (Nat.odd i); reflexivity. Qed.
Lemma tracks_built : forall f, exists d F m, ib_tracks f = Ok d /\ di_geom d = sf_ch f /\ res_free d /\ di_res d = [RBitStream] /\ wf d (tab F (lc f) (lh f)) /\
  mfm_data m = map Nat.even (seq 0 (N.to_nat (sf_bitcell_ct f))) /\
  forall h c, (h < lh f)%N -> (c < lc f)%N -> F h c = TBit (mkTrack (mkCh c h) m meta_default true).
Proof.
  intros f. assert (Hpos : (0 < sf_bitcell_ct f)%N) by (destruct f; reflexivity).
  assert (Hm : exists m, mfm_new (empty_bits (N.to_nat (sf_bitcell_ct f)) (Some false)) None None = Ok m /\ mfm_data m = empty_bits (N.to_nat (sf_bitcell_ct f)) (Some false)).
  { unfold mfm_new. rewrite repeat_length, Nat.ltb_irrefl. eexists. split; reflexivity. }
  destruct Hm as (m & Em & Ed).
  set (R := fun d => res_free d /\ di_res d = [RBitStream] /\ di_geom d = sf_ch f).
  set (Q := fun (ch : DiskCh) (_ : list N) (t : DTrack) => t = TBit (mkTrack ch m meta_default true)).
  destruct (load_cylinders (lc f) (lh f) 0 (fun '(d, rest) ch => let! d := fstep f d ch in Ok (d, skipn 0 rest)) Q R (lh_12 f)) with
    (n := N.to_nat (lc f)) (d := set_resolution (di_create (sf_ch f) (l_s (sf_layout f))) RBitStream) (img := @nil N) as (d & F & E & W & (Rf & Rb & Rg) & HQ).
  - intros d s ch rest Hwf (Hr & Hb & Hg) _ Hh Hlen _ _.
    assert (Hh2 : (ch_h ch < 2)%N) by (destruct (lh_12 f); lia).
    destruct (add_one f m d s ch Em Hwf Hr Hh2 Hlen) as (d' & E & W & Hr').
    unfold add_step in E. destruct (add_empty_track d ch _ _ _) as [d1 r] eqn:Ex. injection E as -> E. exists d', (TBit (mkTrack ch m meta_default true)).
    unfold fstep. rewrite Ex. destruct r as [u|e|]; cbn [omap obind] in *; try discriminate. split; [reflexivity|]. split; [exact W|]. split; [|reflexivity].
    destruct (add_geom _ _ _ _ _ _ _ Ex) as [G _]. split; [exact Hr'|]. split; [|congruence].
    unfold add_empty_track in Ex. destruct (2 <=? ch_h ch)%N; [congruence|]. destruct (res_rejects d RBitStream); [congruence|].
    rewrite Hb in Ex. change (res_insert RBitStream [RBitStream]) with [RBitStream] in Ex. cbn [with_res di_res] in Ex.
    repeat match type of Ex with context [if ?c then _ else _] => destruct c | context [match ?c with _ => _ end] => destruct c end; inversion Ex; subst; reflexivity.
  - lia.
  - apply empty_wf; reflexivity.
  - split; [split; [reflexivity|right; reflexivity]|split; reflexivity].
  - cbn. lia.
  - reflexivity.
  - rewrite N2Nat.id in *. exists d, F, m. split; [|split; [exact Rg|split; [exact Rf|split; [exact Rb|split; [exact W|split; [|]]]]]].
    + unfold ib_tracks. rewrite tracks_of_all by (destruct f; reflexivity). apply (fold_pair f _ _ _ _ _ E).
    + rewrite Ed. unfold empty_bits. apply map_ext. intros i. apply even_mod2.
    + intros h c A B. exact (HQ h c A B).
Qed.
Lemma tracks_blank : forall f d, ib_tracks f = Ok d -> blank_disk d f /\ N.of_nat (length (di_map0 d)) = lc f.
Proof.
  intros f d E. destruct (tracks_built f) as (d' & F & m & E' & G & _ & Hb & W & Hm & HF). assert (d' = d) by congruence. subst d'. clear E E'.
  assert (Hd : forall c h, (h < 2)%N -> di_track d (mkCh c h) = Ok (if (c <? lc f)%N && (h <? lh f)%N then Some (F h c) else None)).
  { intros c h Hh. rewrite (wf_shows _ _ W) by exact Hh. f_equal. apply side_tab, lh_12. }
  split.
  - split; [rewrite G; destruct f; reflexivity|]. split; [exact Hb|]. split.
    + intros c h Hc Hh. rewrite Hd by (destruct (lh_12 f) as [X|X]; unfold lh in X; rewrite X in Hh; lia).
      fold (lc f) in Hc. fold (lh f) in Hh. rewrite (proj2 (N.ltb_lt _ _) Hc), (proj2 (N.ltb_lt _ _) Hh). cbn [andb]. rewrite (HF h c Hh Hc).
      eexists. split; [reflexivity|]. cbn [bt_ch bt_data]. split; [reflexivity|]. split; [reflexivity|].
      rewrite Hm. rewrite map_length, seq_length. split; [apply N2Nat.id|]. intros i Hi. rewrite nth_error_map, nth_error_seq by exact Hi. reflexivity.
    + intros c h Hh Hout. rewrite Hd by exact Hh. destruct (N.ltb_spec c (lc f)); destruct (N.ltb_spec h (lh f)); cbn [andb]; try reflexivity. unfold lc, lh in *. lia.
  - destruct W as [_ [S0 _]]. rewrite (map_some_len _ _ _ S0). change (fst (tab F (lc f) (lh f))) with (side (tab F (lc f) (lh f)) 0).
    rewrite tab_side_length; [lia|apply lh_12|destruct f; reflexivity].
Qed.

(* ---- the flat file of a fresh disk ---- *)
Lemma slice_repeat : forall k n o, o + k <= n -> slice (repeat 0%N n) o k = repeat 0%N k.
Proof.
  intros k n o H. apply list_eq_nth_error. intros i. unfold slice. rewrite nth_error_firstn, nth_error_skipn.
  destruct (Nat.ltb_spec i k) as [Hi|Hi].
  - rewrite !nth_error_repeat by (clear - Hi H; lia). reflexivity.
  - symmetry. apply nth_error_None. rewrite repeat_length. exact Hi.
Qed.
Lemma slice_right : forall (B R : list N) K a n, length B = K -> slice (B ++ R) (K + a) n = slice R a n.
Proof.
  intros B R K a n <-. unfold slice. f_equal. rewrite skipn_app. rewrite skipn_all2 by lia. cbn [app]. f_equal. lia.
Qed.
Lemma fresh_sector : forall f B c h s, is_pc f -> length B = 512 -> in_layout f c h s -> sector_at (fresh_flat f B) (sector_no f c h s) = fresh_content B c h s.
Proof.
  intros f B c h s Hf HB Hin. pose proof (sector_no_lt f c h s Hf Hin) as Hlt. destruct (pc_layout f Hf) as (_ & _ & _ & D & _).
  destruct Hin as (Hc & Hh & Hs). unfold sector_at, fresh_flat, fresh_content. rewrite D.
  destruct (N.eq_dec (sector_no f c h s) 0) as [Z|Z].
  - rewrite Z. assert (X : (c = 0 /\ h = 0 /\ s = 1)%N).
    { unfold sector_no in Z. apply N.eq_add_0 in Z as [Z1 Z2]. apply N.eq_mul_0 in Z1 as [Z1|Z1]; [|lia].
      apply N.eq_add_0 in Z1 as [Z1 Z3]. apply N.eq_mul_0 in Z1 as [Z1|Z1]; lia. }
    destruct X as (-> & -> & ->). change (0 =? 0)%N with true. change (1 =? 1)%N with true. cbn [andb].
    change (N.to_nat (0 * 512)) with 0. unfold slice. cbn [skipn]. rewrite <- HB. rewrite firstn_app, Nat.sub_diag, firstn_all. apply app_nil_r.
  - assert (X : ((c =? 0) && (h =? 0) && (s =? 1))%N = false).
    { destruct (N.eqb_spec c 0) as [->|]; [|reflexivity]. destruct (N.eqb_spec h 0) as [->|]; [|reflexivity]. destruct (N.eqb_spec s 1) as [->|]; [|reflexivity].
      exfalso. apply Z. unfold sector_no. lia. }
    rewrite X. unfold zeros. set (k := sector_no f c h s) in *. set (n := total f) in *.
    assert (Hn : exists a b : nat, N.to_nat (k * 512) = 512 + a /\ N.to_nat (n * 512) - 512 = b /\ a + 512 <= b).
    { exists (N.to_nat ((k - 1) * 512)), (N.to_nat (n * 512) - 512). clear - Z Hlt. lia. }
    destruct Hn as (a & b & -> & -> & Hab). rewrite (slice_right B _ 512 a 512 HB). exact (slice_repeat _ _ _ Hab).
Qed.
Lemma fresh_length : forall f B, is_pc f -> length B = 512 -> N.of_nat (length (fresh_flat f B)) = sf_disk_size f.
Proof.
  intros f B Hf HB. unfold fresh_flat. rewrite app_length, repeat_length, HB. destruct Hf as [X Y]. destruct f; try congruence; cbn [sf_disk_size]; lia.
Qed.

(* ---- building ---- *)
Lemma formatted_built : forall rnd f creator, is_pc f -> accepts_creator DEFAULT_BOOT_SECTOR creator ->
  exists d B F, ib_bitstream_formatted rnd f Fat12 creator = Ok d /\ boot_for DEFAULT_BOOT_SECTOR f creator B /\ bytes_ok B = true /\
    di_geom d = sf_ch f /\ wf d (tab F (lc f) (lh f)) /\
    forall h c, (h < lh f)%N -> (c < lc f)%N -> holds_track f (mkCh c h) (fun s => sector_at (fresh_flat f B) (sector_no f c h s)) (F h c).
Proof.
  intros rnd f creator Hf Hcr. destruct (tracks_built f) as (d0 & F0 & m & E0 & G0 & _ & Hb & _).
  assert (HL : 512 <= length DEFAULT_BOOT_SECTOR) by (apply Nat.leb_le; vm_compute; reflexivity).
  assert (HB : bytes_ok DEFAULT_BOOT_SECTOR = true) by (vm_compute; reflexivity).
  destruct (boot_result_ok None f creator Hf HL HB Hcr) as (b & Eb & Bf & Bo).
  assert (Lb : length (bs_buf b) = 512) by apply Bf.
  destruct (format_main rnd d0 f None creator b Hf (or_intror Hb) Eb Lb Bo) as (d & E & _ & _ & G & _ & F & W & HF).
  exists d, (bs_buf b), F. split; [unfold ib_bitstream_formatted; rewrite E0; cbn [obind]; rewrite E; reflexivity|].
  split; [exact Bf|]. split; [exact Bo|]. split; [rewrite G; exact G0|]. split; [exact W|].
  intros h c A B. destruct (HF h c A B) as (x & Ex & Hx). exists x. split; [exact Ex|].
  refine (data_ext f _ _ _ x _ Hx). intros s Hs. symmetry. apply (fresh_sector f (bs_buf b) c h s Hf Lb). split; [exact B|split; [exact A|exact Hs]].
Qed.
Lemma describes_field : forall f B, describes B f -> exists b, boot_field B = Some b /\ boot_standard_format b = Some f.
Proof. intros f B (b & E & _ & S & _). exists b. unfold boot_field. rewrite E. auto. Qed.
