(* Raw_proofs.v - raw sector images. *)
From Coq Require Import List.
From Verif Require Import Base Base_lemmas Chs_model Chs_spec Chs_proofs BitRing_model Mfm_model Types_model System34_model System34_spec MetaSector_model MetaSector_spec
  BitStream_model BitStream_spec MetaSector_proofs Stream_proofs S34_layout_proofs S34_format_proofs S34_meta_proofs S34_track_proofs S34_ops_proofs Bs_general_proofs Bs_history_proofs
  DiskImage_model DiskImage_spec DiskImage_proofs DiskImage2_proofs TreeMap_proofs Format_model Format_spec Format_proofs Format2_proofs Format3_proofs
  SectorView_model SectorView_spec SectorView_proofs SectorView2_proofs Raw_model.
Import ListNotations.

(* ---- iterators ---- *)
Lemma drain_drained : forall {A} (l : list A) k, length l < k -> drain (drained k l) = l.
Proof.
  intros A l. assert (G : forall l' i k, length l' < k -> (forall j, nth_error l (i + j) = nth_error l' j) -> drain (map (nth_error l) (seq i k)) = l').
  { induction l' as [|x l' IH]; intros i k Hk Hn; (destruct k as [|k]; [cbn in Hk; lia|]); cbn [seq map].
    - specialize (Hn 0). rewrite Nat.add_0_r in Hn. rewrite Hn. reflexivity.
    - pose proof (Hn 0) as H0. rewrite Nat.add_0_r in H0. rewrite H0. cbn [nth_error drain]. f_equal. apply IH; [cbn in Hk; lia|].
      intros j. specialize (Hn (S j)). cbn [nth_error] in Hn. rewrite <- Hn. f_equal. lia. }
  intros k Hk. apply (G l 0 k Hk). reflexivity.
Qed.
Lemma all_tracks_length : forall C H, length (all_tracks (mkCh C H)) = N.to_nat (C * H).
Proof.
  intros C H. unfold all_tracks. cbn [ch_c ch_h]. rewrite (flat_map_const_length _ (N.to_nat H)).
  - rewrite Nseq_length, N2Nat.inj_mul. lia.
  - intros x. rewrite map_length, Nseq_length. reflexivity.
Qed.
Lemma tracks_of_all : forall g, (0 < l_c g)%N -> (0 < l_h g)%N -> tracks_of g = all_tracks (mkCh (l_c g) (l_h g)).
Proof.
  intros g Hc Hh. unfold tracks_of. rewrite ch_iter_drained by assumption. apply drain_drained. rewrite all_tracks_length. lia.
Qed.
Lemma sectors_of_all : forall g, layout_ok g -> (l_s g - 1 + l_s_off g <= 255)%N -> (0 < l_c g)%N ->
  sectors_of g = Ok (map (fun x => mkChsn x (bytes_to_n (l_size g))) (all_sectors g)).
Proof.
  intros g Hg Ho Hc. unfold sectors_of, chsn_iter. rewrite chs_iter_drained by assumption. cbn [omap obind]. f_equal.
  assert (E : forall k l, map (option_map (fun x => mkChsn x (bytes_to_n (l_size g)))) (drained k l) = drained k (map (fun x => mkChsn x (bytes_to_n (l_size g))) l)).
  { intros k l. unfold drained. rewrite map_map. apply map_ext. intros i. rewrite nth_error_map. reflexivity. }
  rewrite E. apply drain_drained. rewrite map_length.
  assert (Hl : length (all_sectors g) = N.to_nat (l_c g * l_h g * l_s g)).
  { unfold all_sectors. rewrite (flat_map_const_length _ (N.to_nat (l_h g * l_s g))).
    - rewrite Nseq_length, !N2Nat.inj_mul. lia.
    - intros x. rewrite (flat_map_const_length _ (N.to_nat (l_s g))); [rewrite Nseq_length, N2Nat.inj_mul; reflexivity|].
      intros y. rewrite map_length, Nseq_length. reflexivity. }
  rewrite Hl. lia.
Qed.

(* ---- a fold over all tracks which adds one track each ---- *)
Definition set_track (F : N -> N -> DTrack) (c h : N) (t : DTrack) : N -> N -> DTrack :=
  fun h' c' => if (h' =? h)%N && (c' =? c)%N then t else F h' c'.
Lemma tab_side_length : forall F C H h, (H = 1 \/ H = 2)%N -> (h < H)%N -> length (side (tab F C H) h) = N.to_nat C.
Proof.
  intros F C H h HH Hh. assert (E : h = 0%N \/ h = 1%N) by lia. unfold tab. destruct E as [-> | ->]; cbn [side fst snd].
  - rewrite map_length, Nseq_length. reflexivity.
  - assert (H = 2)%N by lia. subst H. change (2 <? 2)%N with false. cbn iota. rewrite map_length, Nseq_length. reflexivity.
Qed.
Lemma map_Nseq_ext : forall (F G : N -> DTrack) n, (forall c, (c < N.of_nat n)%N -> F c = G c) -> map F (Nseq (N.of_nat n)) = map G (Nseq (N.of_nat n)).
Proof. intros F G n H. apply map_ext_in. intros c Hc. apply in_Nseq in Hc. auto. Qed.
Lemma append_0 : forall F n t, append_to (map (F 0%N) (Nseq (N.of_nat n)), []) 0%N t = (map (set_track F (N.of_nat n) 0 t 0%N) (Nseq (N.of_nat (S n))), []).
Proof.
  intros F n t. unfold append_to. cbn [fst snd]. rewrite Nseq_S, map_app. cbn [map]. unfold set_track at 2. rewrite !N.eqb_refl. cbn [andb]. do 2 f_equal.
  apply map_Nseq_ext. intros c Hc. unfold set_track. destruct (N.eqb_spec c (N.of_nat n)); [lia|]. rewrite andb_false_r. reflexivity.
Qed.
Lemma bytes_ok_skipn : forall n l, bytes_ok l = true -> bytes_ok (skipn n l) = true.
Proof.
  intros n l Hl. replace (skipn n l) with (slice l n (length l)); [apply bytes_ok_slice, Hl|]. unfold slice. apply firstn_all2. rewrite skipn_length. lia.
Qed.
Section Load.
Variables (C H : N) (ts : nat) (step : DiskImage * list N -> DiskCh -> outcome (DiskImage * list N))
  (Q : DiskCh -> list N -> DTrack -> Prop) (R : DiskImage -> Prop).
Hypothesis HH : (H = 1 \/ H = 2)%N.
Hypothesis Hstep : forall d s ch rest, wf d s -> R d -> (ch_c ch < C)%N -> (ch_h ch < H)%N -> length (side s (ch_h ch)) = N.to_nat (ch_c ch) ->
  ts <= length rest -> bytes_ok rest = true -> exists d' t, step (d, rest) ch = Ok (d', skipn ts rest) /\ wf d' (append_to s (ch_h ch) t) /\ R d' /\ Q ch (firstn ts rest) t.
Lemma load_cylinders : forall n d img, (N.of_nat n <= C)%N -> wf d ([], []) -> R d -> n * (N.to_nat H * ts) <= length img -> bytes_ok img = true ->
  exists d' F, ofold step (all_tracks (mkCh (N.of_nat n) H)) (d, img) = Ok (d', skipn (n * (N.to_nat H * ts)) img) /\ wf d' (tab F (N.of_nat n) H) /\ R d' /\
    forall h c, (h < H)%N -> (c < N.of_nat n)%N -> Q (mkCh c h) (slice img (N.to_nat (c * H + h) * ts) ts) (F h c).
Proof.
  induction n as [|n IH]; intros d img HC Hwf HR Hl Hb.
  - exists d, (fun _ _ => TMeta (mkMST (mkCh 0 0) [])). split; [reflexivity|]. split; [|split; [exact HR|intros; lia]].
    unfold tab. destruct (H <? 2)%N; exact Hwf.
  - destruct (IH d img ltac:(lia) Hwf HR ltac:(lia) Hb) as (d1 & F & E1 & W1 & R1 & Q1).
    assert (Ea : all_tracks (mkCh (N.of_nat (S n)) H) = all_tracks (mkCh (N.of_nat n) H) ++ map (fun h => mkCh (N.of_nat n) h) (Nseq H)).
    { unfold all_tracks. cbn [ch_c ch_h]. rewrite Nseq_S, flat_map_app. cbn [flat_map]. rewrite app_nil_r. reflexivity. }
    rewrite Ea, ofold_app, E1. cbn [obind].
    set (r1 := skipn (n * (N.to_nat H * ts)) img).
    assert (Hr1 : N.to_nat H * ts <= length r1) by (unfold r1; rewrite skipn_length; lia).
    assert (Hb1 : bytes_ok r1 = true) by (apply bytes_ok_skipn, Hb).
    assert (Hs0 : firstn ts r1 = slice img (N.to_nat (N.of_nat n * H + 0) * ts) ts).
    { unfold slice, r1. do 2 f_equal. rewrite N.add_0_r, N2Nat.inj_mul, Nat2N.id. lia. }
    destruct (Hstep d1 _ (mkCh (N.of_nat n) 0) r1 W1 R1) as (d2 & t0 & E2 & W2 & R2 & Q2); cbn [ch_c ch_h]; auto; [lia|lia| |nia|].
    { rewrite tab_side_length by (auto; lia). reflexivity. }
    cbn [ch_h] in W2. destruct HH as [HH1|HH2]; subst H.
    + change (Nseq 1) with [0%N]. cbn [map ofold]. rewrite E2. cbn [obind ofold].
      exists d2, (set_track F (N.of_nat n) 0 t0). split; [|split; [|split; [exact R2|]]].
      * unfold r1. rewrite skipn_skipn'. do 3 f_equal. change (N.to_nat 1) with 1. lia.
      * unfold tab in *. change (1 <? 2)%N with true in *. cbn iota in *. rewrite append_0 in W2. exact W2.
      * intros h c Hh Hc. unfold set_track. assert (h = 0%N) by lia. subst h. change (0 =? 0)%N with true. cbn [andb].
        destruct (N.eqb_spec c (N.of_nat n)) as [->|Hne]; [rewrite <- Hs0; exact Q2|]. apply Q1; lia.
    + destruct (Hstep d2 _ (mkCh (N.of_nat n) 1) (skipn ts r1) W2 R2) as (d3 & t1 & E3 & W3 & R3 & Q3); cbn [ch_c ch_h].
      { lia. } { lia. }
      { unfold tab, append_to. change (2 <? 2)%N with false. cbn [side fst snd]. rewrite map_length, Nseq_length. lia. }
      { rewrite skipn_length. change (N.to_nat 2) with 2 in Hr1. lia. } { apply bytes_ok_skipn, Hb1. }
      change (Nseq 2) with [0%N; 1%N]. cbn [map ofold]. rewrite E2. cbn [obind ofold]. rewrite E3. cbn [obind ofold].
      exists d3, (set_track (set_track F (N.of_nat n) 0 t0) (N.of_nat n) 1 t1). split; [|split; [|split; [exact R3|]]].
      * unfold r1. rewrite !skipn_skipn'. do 3 f_equal. change (N.to_nat 2) with 2. lia.
      * unfold tab in *. change (2 <? 2)%N with false in *. cbn [ch_h] in W3. cbn iota in *. unfold append_to in W3. cbn [fst snd] in W3.
        rewrite Nseq_S, !map_app. cbn [map]. unfold set_track in *. rewrite !N.eqb_refl. change (0 =? 1)%N with false. change (1 =? 0)%N with false. cbn [andb].
        assert (Z : forall G : N -> DTrack, forall t, map (fun c' => if (c' =? N.of_nat n)%N then t else G c') (Nseq (N.of_nat n)) = map G (Nseq (N.of_nat n))).
        { intros G t. apply map_Nseq_ext. intros c Hc. destruct (N.eqb_spec c (N.of_nat n)); [lia|reflexivity]. }
        rewrite !Z. exact W3.
      * intros h c Hh Hc. unfold set_track. assert (E : h = 0%N \/ h = 1%N) by lia. destruct E as [-> | ->].
        -- change (0 =? 1)%N with false. change (0 =? 0)%N with true. cbn [andb]. destruct (N.eqb_spec c (N.of_nat n)) as [->|Hne]; [rewrite <- Hs0; exact Q2|]. apply Q1; lia.
        -- change (1 =? 1)%N with true. change (1 =? 0)%N with false. cbn [andb]. destruct (N.eqb_spec c (N.of_nat n)) as [->|Hne]; [|apply Q1; lia].
           replace (slice img (N.to_nat (N.of_nat n * 2 + 1) * ts) ts) with (firstn ts (skipn ts r1)); [exact Q3|].
           unfold slice, r1. rewrite skipn_skipn'. do 2 f_equal. change (N.to_nat 2) with 2. lia.
Qed.
End Load.

(* ---- one bitstream track ---- *)
Definition ibm_track (f : StandardFormat) (ch : DiskCh) (data : N -> list N) (t : BitTrack) : Prop :=
  exists ss B, good SIbm (N.to_nat (sf_gap3 f)) ss t B /\ bt_schema t = true /\ bt_ch t = ch /\ map fs_id ss = format_ids f ch /\
    forall k s, nth_error ss k = Some s -> fs_data s = data (N.of_nat k + 1)%N.
Lemma ibm_fmt : forall f ch data t, ibm_track f ch data t -> fmt_track f ch data t.
Proof. intros f ch data t (ss & B & H). exists SIbm, ss, B. exact H. Qed.
Lemma read_loop : forall (A : Type) (l : list A) size pat rest, length l * size <= length rest ->
  ofold (fun '(pat, rest) (_ : A) => let! (b, rest) := read_exact size rest in Ok (pat ++ b, rest)) l (pat, rest) =
    Ok (pat ++ firstn (length l * size) rest, skipn (length l * size) rest).
Proof.
  intros A. induction l as [|x l IH]; intros size pat rest Hl; cbn [length ofold].
  - cbn [Nat.mul firstn skipn]. rewrite app_nil_r. reflexivity.
  - cbn [length] in Hl. assert (E : read_exact size rest = Ok (firstn size rest, skipn size rest)).
    { unfold read_exact. destruct (Nat.ltb_spec (length rest) size); [lia|reflexivity]. }
    rewrite E. cbn [obind].
    rewrite IH by (rewrite skipn_length; lia). f_equal. f_equal.
    + rewrite <- app_assoc. f_equal. cbn [Nat.mul]. rewrite <- (firstn_skipn size rest) at 3. rewrite firstn_app, firstn_length.
      rewrite Nat.min_l by lia. rewrite firstn_firstn, Nat.min_r by lia. f_equal. f_equal. lia.
    + rewrite skipn_skipn'. f_equal. cbn [Nat.mul]. lia.
Qed.
Lemma read_pattern_ok : forall g rest, N.to_nat (l_s g) * N.to_nat (l_size g) <= length rest ->
  read_pattern g rest = Ok (firstn (N.to_nat (l_s g) * N.to_nat (l_size g)) rest, skipn (N.to_nat (l_s g) * N.to_nat (l_size g)) rest).
Proof.
  intros g rest H. unfold read_pattern. rewrite read_loop by (rewrite Nseq_length; exact H). rewrite Nseq_length. reflexivity.
Qed.
Lemma fill_slice : forall pat k n, k + n <= length pat -> fill pat k n = slice pat k n.
Proof.
  intros pat k n H. apply list_eq_nth_error. intros j. unfold fill. rewrite nth_slice_gen, nth_error_map_seq. destruct (Nat.ltb_spec j n); [|reflexivity].
  rewrite Nat.mod_small by lia. symmetry. apply nth_error_nth'. lia.
Qed.
Lemma filled_nth : forall pat ids k0 k s, (forall i, In i ids -> n_size i = 512) -> nth_error (filled pat k0 ids) k = Some s -> fs_data s = fill pat (k0 + k * 512) 512.
Proof.
  intros pat. induction ids as [|i ids IH]; intros k0 k s Hn Hk; cbn [filled] in Hk; [destruct k; discriminate|].
  pose proof (Hn i (or_introl eq_refl)) as Hi. destruct k as [|k]; cbn [nth_error] in Hk.
  - injection Hk as <-. cbn [fs_data]. rewrite Hi. f_equal. lia.
  - rewrite (IH _ _ _ (fun j Hj => Hn j (or_intror Hj)) Hk). rewrite Hi. f_equal. lia.
Qed.
Lemma raw_ids : forall f ch, is_pc f -> map (raw_id (sf_layout f) ch) (Nseq (l_s (sf_layout f))) = format_ids f ch.
Proof.
  intros f ch Hf. destruct (pc_layout f Hf) as (_ & E & _). unfold format_ids. apply map_ext. intros s. unfold raw_id. rewrite E. reflexivity.
Qed.
Lemma load_bit_step : forall rnd f d s ch rest, is_pc f -> let ts := N.to_nat (l_s (sf_layout f)) * 512 in
  wf d s -> res_free d -> (ch_c ch < lc f)%N -> (ch_h ch < lh f)%N -> length (side s (ch_h ch)) = N.to_nat (ch_c ch) ->
  ts <= length rest -> bytes_ok rest = true ->
  exists d' t, load_bit_track rnd f (d, rest) ch = Ok (d', skipn ts rest) /\ wf d' (append_to s (ch_h ch) t) /\ res_free d' /\
    exists b, t = TBit b /\ ibm_track f ch (fun x => slice (firstn ts rest) (N.to_nat (x - 1) * 512) 512) b.
Proof.
  intros rnd f d s ch rest Hf ts Hwf [Hm Hr] Hc Hh Hlen Hl Hb.
  assert (Hsz : N.to_nat (l_size (sf_layout f)) = 512) by (destruct (layout_facts f Hf) as (E & _); rewrite E; reflexivity).
  assert (Hh2 : (ch_h ch < 2)%N) by (destruct (lh_12 f); lia).
  destruct (layout_facts f Hf) as (_ & _ & _ & _ & _ & Hs & Hcells & _).
  destruct (blank_bits (N.to_nat (sf_bitcell_ct f)) ltac:(lia)) as (m & Em & Hlm & Hfm).
  assert (Hne : firstn ts rest <> []).
  { intros E. apply (f_equal (@length N)) in E. rewrite firstn_length, Nat.min_l in E by lia. cbn [length] in E. unfold ts in E. lia. }
  destruct (format_gen (rnd_bit rnd) SIbm f ch (mkTrack ch m meta_default true) (firstn ts rest) Hf (or_intror eq_refl) Hc Hh (Hfm ch) eq_refl eq_refl Hlm Hne)
    as (b & Eb & B & G & S & Ch).
  { apply (bytes_ok_slice rest 0 ts Hb). }
  exists (push_track (with_res d [RBitStream]) (ch_h ch) (TBit b)), (TBit b).
  split; [|split; [apply push_wf; [apply with_res_wf; exact Hwf|exact Hh2]|split; [split; [exact Hm|right; reflexivity]|]]].
  - unfold load_bit_track, add_empty_track. destruct (N.leb_spec 2 (ch_h ch)); [lia|].
    assert (Hrej : res_rejects d RBitStream = false) by (unfold res_rejects; rewrite Hm; destruct Hr as [-> | ->]; reflexivity). rewrite Hrej.
    assert (Hins : res_insert RBitStream (di_res d) = [RBitStream]) by (destruct Hr as [-> | ->]; reflexivity).
    cbn [di_res with_res]. rewrite Hins.
    assert (Hmap : exists mp, head_map (with_res d [RBitStream]) (ch_h ch) = Ok mp /\ length mp = N.to_nat (ch_c ch)).
    { destruct Hwf as [_ [H0 H1]]. apply map_some_len in H0. apply map_some_len in H1.
      assert (E : ch_h ch = 0%N \/ ch_h ch = 1%N) by lia. destruct E as [E|E]; rewrite E in *; cbn [head_map side] in *; eexists; (split; [reflexivity|]); cbn; congruence. }
    destruct Hmap as (mp & -> & Hlm'). rewrite Hlm', Nat.eqb_refl. cbn [negb res_min res_mem existsb res_eqb res_num Nat.eqb orb]. rewrite Em. cbn [omap obind].
    rewrite read_pattern_ok by (rewrite Hsz; exact Hl). rewrite Hsz. fold ts. cbn [obind].
    cbn [push_track di_pool with_res]. rewrite nth_error_app2 by lia. rewrite Nat.sub_diag. cbn [nth_error obind tk_format].
    rewrite raw_ids by exact Hf. rewrite Eb. cbn [obind]. unfold with_pool, push_track. cbn.
    do 3 f_equal. apply list_eq_nth_error. intros j. destruct (Nat.eq_dec j (length (di_pool d))) as [->|Hj].
    + rewrite nth_error_upd_same by (rewrite app_length; cbn; lia). rewrite nth_error_app2, Nat.sub_diag by lia. reflexivity.
    + rewrite nth_error_upd_other by auto. destruct (Nat.lt_ge_cases j (length (di_pool d))).
      * rewrite !nth_error_app1 by lia. reflexivity.
      * rewrite !nth_error_app2 by lia. destruct (j - length (di_pool d)) as [|[|x]] eqn:E; [lia|reflexivity|reflexivity].
  - exists b. split; [reflexivity|]. exists (filled (firstn ts rest) 0 (format_ids f ch)), B. split; [exact G|]. split; [exact S|]. split; [exact Ch|].
    split; [apply filled_ids|]. intros k x Hk.
    assert (Hkl : k < N.to_nat (l_s (sf_layout f))).
    { rewrite <- (format_ids_length f ch), <- (filled_ids (firstn ts rest) 0 (format_ids f ch)), map_length. apply nth_error_Some. congruence. }
    erewrite filled_nth; [|intros i Hi; apply format_ids_in in Hi as (y & _ & ->); reflexivity|exact Hk].
    cbn [Nat.add]. rewrite fill_slice by (rewrite firstn_length, Nat.min_l by lia; unfold ts; lia).
    f_equal. f_equal. lia.
Qed.

(* ---- loading a PC image ---- *)
Lemma slice_slice : forall (l : list N) a n b k, b + k <= n -> slice (slice l a n) b k = slice l (a + b) k.
Proof.
  intros l a n b k H. apply list_eq_nth_error. intros j. rewrite !nth_slice_gen. destruct (Nat.ltb_spec j k); [|reflexivity].
  destruct (Nat.ltb_spec (b + j) n); [|lia]. f_equal. lia.
Qed.
Lemma size_format : forall n f, sf_of_size n = Some f -> n = sf_disk_size f /\ f <> AmigaFloppy1760.
Proof.
  intros n f H. unfold sf_of_size in H.
  repeat (match type of H with context [(n =? ?k)%N] => destruct (N.eqb_spec n k) as [->|_]; [injection H as <-; split; [reflexivity|discriminate]|] end). discriminate.
Qed.
Lemma of_size : forall f, is_pc f -> sf_of_size (sf_disk_size f) = Some f.
Proof. intros f [A B]. destruct f; try congruence; reflexivity. Qed.
Theorem load_bitstream : forall rnd f img, is_pc f -> N.of_nat (length img) = sf_disk_size f -> bytes_ok img = true ->
  exists d F, raw_load_image rnd di_default img = Ok d /\ di_geom d = sf_ch f /\ wf d (tab F (lc f) (lh f)) /\
    forall h c, (h < lh f)%N -> (c < lc f)%N -> exists b, F h c = TBit b /\ ibm_track f (mkCh c h) (fun s => sector_at img (sector_no f c h s)) b.
Proof.
  intros rnd f img Hf Hlen Hb. destruct (pc_layout f Hf) as (_ & _ & Hsz & D & _). destruct (layout_facts f Hf) as (_ & _ & _ & Hc & Hh & Hs & _).
  set (ts := N.to_nat (l_s (sf_layout f)) * 512).
  destruct (load_cylinders (lc f) (lh f) ts (load_bit_track rnd f)
     (fun ch pat t => exists b, t = TBit b /\ ibm_track f ch (fun x => slice pat (N.to_nat (x - 1) * 512) 512) b) res_free (lh_12 f)
     (fun d s ch rest A B C0 D0 E0 F0 G0 => load_bit_step rnd f d s ch rest Hf A B C0 D0 E0 F0 G0)
     (N.to_nat (lc f)) (set_resolution di_default RBitStream) img) as (d & F & E & W & R & HQ).
  { lia. } { apply empty_wf; reflexivity. } { split; [reflexivity|right; reflexivity]. }
  { rewrite D in Hlen. unfold ts, total, lc, lh in *. lia. } { exact Hb. }
  rewrite N2Nat.id in *. exists (with_geom d (sf_ch f)), F. split; [|split; [reflexivity|split]].
  - unfold raw_load_image. rewrite Hlen, of_size by exact Hf. unfold sf_sector_size. rewrite Hsz, D. unfold total.
    assert (E1 : (l_c (sf_layout f) * l_h (sf_layout f) * l_s (sf_layout f) * 512 = l_c (sf_layout f) * l_h (sf_layout f) * (l_s (sf_layout f) * 512))%N) by lia.
    rewrite E1, N.div_mul, N.mod_mul, !N.eqb_refl by lia. cbn [negb].
    assert (El : load_as_bitstream rnd di_default f img = Ok (with_geom d (sf_ch f))).
    { unfold load_as_bitstream. rewrite tracks_of_all by assumption. fold (lc f) (lh f).
      rewrite E. reflexivity. }
    destruct Hf as [A B]. destruct f; try congruence; exact El.
  - eapply wf_ext; [..|exact W]; reflexivity.
  - intros h c Ah Ac. destruct (HQ h c Ah Ac) as (b & Eb & (ss & B & G & S & Ch & Hids & Hd)). exists b. split; [exact Eb|].
    exists ss, B. split; [exact G|]. split; [exact S|]. split; [exact Ch|]. split; [exact Hids|]. intros k x Hk. rewrite (Hd k x Hk).
    assert (Hkl : k < N.to_nat (l_s (sf_layout f))).
    { rewrite <- (format_ids_length f (mkCh c h)), <- Hids, map_length. apply nth_error_Some. congruence. }
    unfold sector_at, sector_no. rewrite slice_slice by (unfold ts; lia). f_equal. unfold ts, lh. lia.
Qed.
