(* Raw5_proofs.v - loading of Amiga 880K images (post-load processing), editing. *)
From Coq Require Import List.
From Verif Require Import Base Base_lemmas Chs_model Chs_spec Chs_proofs BitRing_model Mfm_model Types_model MetaSector_model MetaSector_spec MetaSector_proofs
  BitStream_model DiskImage_model DiskImage_spec DiskImage_proofs DiskImage2_proofs TreeMap_proofs Format_model Format_spec Format_proofs Format2_proofs Format3_proofs
  SectorView_model SectorView_spec SectorView_proofs SectorView2_proofs Raw_model Raw_spec Raw_proofs Raw2_proofs Raw3_proofs Raw4_proofs.
Import ListNotations.

(* ---- edits of PC images ---- *)
Lemma write_rest : forall d ch q o data d' r, di_write_sector_basic d ch q o data = (d', r) -> di_analysis d' = di_analysis d /\ di_geom d' = di_geom d.
Proof.
  intros d ch q o data d' r E. unfold di_write_sector_basic in E. destruct (di_write_sector d ch q o data DataOnly false false) as [[d1 w]|e|] eqn:Ew; [|injection E as <- <-; auto|injection E as <- <-; auto].
  unfold di_write_sector in Ew. destruct (seek_track d ch) as [[ti t]|e|]; cbn [obind] in Ew; try discriminate.
  destruct (tk_write_sector t q o data DataOnly false false) as [[t' w']|e|]; cbn [obind] in Ew; try discriminate. injection Ew as <- <-. injection E as <- <-. auto.
Qed.
Lemma writes_saveable : forall f ws d flat, saveable f d flat -> Forall (write_ok f) ws ->
  exists d', write_sectors ws d = Some d' /\ saveable f d' (write_flat f ws flat).
Proof.
  intros f. induction ws as [|[[[c h] s] data] ws IH]; intros d flat Hs Hw; [exists d; auto|].
  destruct Hs as (Hst & Hsp & Hg). inversion Hw as [|? ? Hwo Hw']; subst. destruct Hwo as (Hin & Hl & Hb).
  destruct (fmt_is_store f d flat Hst) as [_ W]. destruct (W c h s data Hin Hl Hb) as (d1 & E1 & P1).
  destruct (write_rest _ _ _ _ _ _ _ E1) as [R1 R2].
  destruct (IH d1 (splice flat (N.to_nat (sector_no f c h s * 512)) data)) as (d2 & E2 & P2); [split; [exact P1|split; congruence]|exact Hw'|].
  exists d2. cbn [write_sectors write_flat fold_left]. rewrite E1. split; [exact E2|exact P2].
Qed.
(* ---- any saved image has the size of the format chosen ---- *)
Lemma fit_length : forall n b, length (fit_sector n b) = n.
Proof. intros n b. unfold fit_sector. destruct (Nat.ltb_spec n (length b)); [apply firstn_length_le; lia|rewrite app_length, repeat_length; lia]. Qed.
Lemma save_length : forall rnd d boot out, raw_save rnd d boot = Ok out ->
  exists f, closest_format d boot true = Some f /\ N.of_nat (length out) = sf_disk_size f.
Proof.
  intros rnd d boot out H. unfold raw_save in H. destruct (closest_format d boot true) as [f|]; [|discriminate]. exists f. split; [reflexivity|].
  assert (Hg : layout_ok (sf_layout f) /\ (l_s (sf_layout f) - 1 + l_s_off (sf_layout f) <= 255)%N /\ (0 < l_c (sf_layout f))%N /\ (0 < l_h (sf_layout f))%N /\ (0 < l_s (sf_layout f))%N /\
     sf_disk_size f = (l_c (sf_layout f) * l_h (sf_layout f) * l_s (sf_layout f) * 512)%N /\ bytes_to_n (l_size (sf_layout f)) = 2%N).
  { destruct f; vm_compute; repeat split; try reflexivity; discriminate. }
  destruct Hg as (G1 & G2 & G3 & G4 & G5 & G6 & G7). rewrite sectors_of_all in H by assumption. cbn [obind] in H. rewrite G7 in H.
  assert (L : forall ids o out, ofold (fun out id =>
        match di_read_sector_basic rnd d (mkCh (chsn_c id) (chsn_h id)) (query_of_chsn id) None with
        | Ok b => Ok (out ++ fit_sector (N.to_nat (n_to_bytes (chsn_n id))) b) | Err _ => Err DataError | Panic => Panic end) (map (fun x => mkChsn x 2) ids) o = Ok out ->
     length out = length o + length ids * 512).
  { induction ids as [|x ids IH]; intros o out0 E; cbn [map ofold] in E; [injection E as <-; cbn; lia|].
    destruct (di_read_sector_basic _ _ _ _ _) as [b|e|]; cbn [obind] in E; try discriminate.
    apply IH in E. rewrite E, app_length, fit_length. cbn [length]. change (N.to_nat (n_to_bytes (chsn_n (mkChsn x 2)))) with 512. lia. }
  apply L in H. rewrite H. cbn [length Nat.add]. rewrite G6.
  assert (Hl : length (all_sectors (sf_layout f)) = N.to_nat (l_c (sf_layout f) * l_h (sf_layout f) * l_s (sf_layout f))).
  { unfold all_sectors. rewrite (flat_map_const_length _ (N.to_nat (l_h (sf_layout f) * l_s (sf_layout f)))).
    - rewrite Nseq_length, !N2Nat.inj_mul. lia.
    - intros x. rewrite (flat_map_const_length _ (N.to_nat (l_s (sf_layout f)))); [rewrite Nseq_length, N2Nat.inj_mul; reflexivity|].
      intros y. rewrite map_length, Nseq_length. reflexivity. }
  rewrite Hl. lia.
Qed.
Lemma trusts_bpb : forall d b f, boot_standard_format b = Some f -> closest_format d (Some b) true = Some f.
Proof. intros d b f H. unfold closest_format. rewrite H. destruct (_ && _); reflexivity. Qed.

(* ---- Amiga: normalisation ---- *)
Definition remap_step : list DTrack * N -> nat -> outcome (list DTrack * N) := fun '(pool, c) ti =>
      let! t := oindex pool ti in
      let ch := tk_ch t in
      let pool := if (ch_c ch =? c)%N then pool else upd pool ti (tk_set_ch t (mkCh c (ch_h ch))) in
      if (c =? 65535)%N then Panic else Ok (pool, (c + 1)%N).
Lemma remap_loop_ok : forall m pool c, (forall ti, In ti m -> ti < length pool) -> (c + N.of_nat (length m) <= 65535)%N ->
  exists p c', ofold remap_step m (pool, c) = Ok (p, c') /\ length p = length pool.
Proof.
  induction m as [|ti m IH]; intros pool c Hin Hc; cbn [ofold]; [eauto|]. cbn [length] in Hc.
  destruct (nth_error pool ti) as [t|] eqn:Et; [|apply nth_error_None in Et; specialize (Hin ti (or_introl eq_refl)); lia].
  unfold remap_step at 1. unfold oindex. rewrite Et. cbn [obind]. cbv zeta. destruct (N.eqb_spec c 65535); [lia|]. cbn [obind].
  set (p1 := if (ch_c (tk_ch t) =? c)%N then pool else upd pool ti (tk_set_ch t (mkCh c (ch_h (tk_ch t))))).
  assert (L : length p1 = length pool) by (unfold p1; destruct (_ =? c)%N; [reflexivity|apply upd_length]).
  destruct (IH p1 (c + 1)%N) as (p & c' & E & El); [intros x Hx; rewrite L; apply Hin; right; exact Hx|lia|]. exists p, c'. split; [exact E|congruence].
Qed.
Lemma remap_head_ok : forall m pool, (forall ti, In ti m -> ti < length pool) -> (N.of_nat (length m) <= 65535)%N ->
  exists p, remap_head pool m = Ok p /\ length p = length pool.
Proof.
  intros m pool Hin Hl. destruct (remap_loop_ok m pool 0%N Hin ltac:(lia)) as (p & c & E & L). exists p. split; [|exact L].
  assert (X : remap_head pool m = let! (p, _) := ofold remap_step m (pool, 0%N) in Ok p) by reflexivity. rewrite X, E. reflexivity.
Qed.
Lemma remap_ok : forall d s, wf d s -> length (fst s) <= 1000 -> length (snd s) <= 1000 -> exists p, remap_tracks d = Ok (with_pool d p).
Proof.
  intros d s [[_ Hr] [H0 H1]] L0 L1. apply map_some_len in H0. apply map_some_len in H1. unfold remap_tracks.
  destruct (remap_head_ok (di_map0 d) (di_pool d)) as (p & -> & El); [intros; apply Hr, in_or_app; auto|lia|]. cbn [obind].
  destruct (remap_head_ok (di_map1 d) p) as (p' & -> & El'); [intros; rewrite El; apply Hr, in_or_app; auto|lia|]. cbn [obind]. eauto.
Qed.
Lemma count_all : forall f l, (forall p, In p l -> f p = Ok true) -> count_pairs f l = Ok (length l).
Proof.
  intros f l H. unfold count_pairs. assert (G : forall l k, (forall p, In p l -> f p = Ok true) -> ofold (fun n p => let! b := f p in Ok (if b then S n else n)) l k = Ok (k + length l)).
  { induction l0 as [|p l0 IH]; intros k Hl; cbn [ofold length]; [f_equal; lia|]. rewrite (Hl p (or_introl eq_refl)). cbn [obind]. rewrite IH by (intros; apply Hl; right; auto). f_equal. lia. }
  exact (G l 0 H).
Qed.
Lemma pairs_at : forall {A} n (l : list A) a b, length l <= n -> In (a, b) (pairs l) -> exists k, nth_error l (2 * k) = Some a /\ nth_error l (2 * k + 1) = Some b.
Proof.
  intros A. induction n as [|n IH]; intros l a b Hn H; [destruct l; [destruct H|cbn in Hn; lia]|].
  destruct l as [|x [|y l]]; try (destruct H; fail). cbn [pairs] in H. destruct H as [H|H]; [injection H as -> ->; exists 0; auto|].
  destruct (IH l a b) as (k & P & Q); [cbn in Hn; lia|exact H|]. exists (S k). replace (2 * S k) with (S (S (2 * k))) by lia. replace (S (S (2 * k)) + 1) with (S (S (2 * k + 1))) by lia. auto.
Qed.
(* all pairs of head 0 alike: every odd cylinder is dropped *)
Lemma normalize_drop : forall hash d s, wf d s -> (forall t, In t (fst s) \/ In t (snd s) -> exists n, tk_sector_ct t = Ok n /\ 0 < n) -> length (fst s) = 80 -> length (snd s) <= 80 ->
  (forall k t0 t1, nth_error (fst s) (2 * k) = Some t0 -> nth_error (fst s) (2 * k + 1) = Some t1 -> hash t0 = hash t1) ->
  exists p, normalize hash d = Ok (with_pool (drop_odd d) p).
Proof.
  intros hash d s Hwf Hct L80 L1 Heq. pose proof Hwf as [_ [S0 S1]]. pose proof (map_some_len _ _ _ S0) as L0.
  assert (Hnth : forall k ti, nth_error (di_map0 d) k = Some ti -> exists t n, nth_error (fst s) k = Some t /\ nth_error (di_pool d) ti = Some t /\ tk_sector_ct t = Ok n /\ 0 < n).
  { intros k ti Hk. pose proof (map_some_nth _ _ _ k S0) as E. rewrite Hk in E.
    destruct (nth_error (fst s) k) as [t|] eqn:Et.
    - destruct (Hct t (or_introl (nth_error_In _ _ Et))) as (n & En & Hn). exists t, n. auto.
    - apply nth_error_None in Et. assert (k < length (di_map0 d)) by (apply nth_error_Some; congruence). lia. }
  assert (He : length (evens (fst s)) <= 1000 /\ length (evens (snd s)) <= 1000).
  { assert (X : forall A n (l : list A), length l <= n -> length (evens l) <= length l).
    { intros A. induction n as [|n IH]; intros [|x [|y l]] H; cbn in *; try lia. specialize (IH l ltac:(lia)). lia. }
    pose proof (X _ _ (fst s) (le_n _)). pose proof (X _ _ (snd s) (le_n _)). lia. }
  destruct (remap_ok (drop_odd d) _ (drop_odd_wf _ _ Hwf) (proj1 He) (proj2 He)) as (p & Ep).
  exists p. unfold normalize.
  assert (E0 : exists n, detect_empty_odd d (di_map0 d) = Ok n).
  { unfold detect_empty_odd. match goal with |- context [count_pairs ?f ?l] => destruct (count_pairs_ok f l) as (n & En & _) end; [|eauto].
    intros [a b] Hp. apply pairs_at with (n := length (di_map0 d)) in Hp as (k & Ha & Hb); [|lia].
    destruct (Hnth _ _ Ha) as (t0 & n0 & _ & P0 & C0 & _). destruct (Hnth _ _ Hb) as (t1 & n1 & _ & P1 & C1 & _).
    unfold oindex. rewrite P0, P1. cbn [obind]. rewrite C0, C1. cbn [obind]. eauto. }
  destruct E0 as (n & ->). cbn [obind]. destruct (_ && _); [exact Ep|].
  assert (E1 : detect_duplicate_odd hash d (di_map0 d) = Ok 40).
  { unfold detect_duplicate_odd. rewrite count_all; [f_equal; rewrite (pairs_length _ _ (le_n _)), L0, L80; reflexivity|].
    intros [a b] Hp. apply pairs_at with (n := length (di_map0 d)) in Hp as (k & Ha & Hb); [|lia].
    destruct (Hnth _ _ Ha) as (t0 & n0 & F0 & P0 & C0 & Z0). destruct (Hnth _ _ Hb) as (t1 & n1 & F1 & P1 & C1 & _).
    unfold oindex. rewrite P0, P1. cbn [obind]. rewrite C0. cbn [obind]. rewrite (Heq k t0 t1 F0 F1), N.eqb_refl. destruct (Nat.ltb_spec 0 n0); [reflexivity|lia]. }
  rewrite E1. cbn [obind]. rewrite L0, L80. exact Ep.
Qed.

(* ---- loading ---- *)
Definition adf_state (d : DiskImage) (flat : list N) : Prop :=
  wf d (tab (adf_disk flat) 80 2) /\ da_spt (di_analysis d) = Some 11%N /\ di_geom d = mkCh 80 2 /\ N.of_nat (length flat) = 901120%N.
(* what is left when the odd cylinders have been dropped *)
Definition adf_half (img : list N) (h c : N) : DTrack := tk_set_ch (adf_disk img h (2 * c)) (mkCh c h).
Definition half_state (d : DiskImage) (img : list N) : Prop :=
  wf d (tab (adf_half img) 40 2) /\ da_spt (di_analysis d) = Some 11%N /\ di_geom d = mkCh 40 2.
Lemma adf_in : forall img t, In t (fst (tab (adf_disk img) 80 2)) \/ In t (snd (tab (adf_disk img) 80 2)) -> exists h c, (h < 2)%N /\ (c < 80)%N /\ t = adf_disk img h c.
Proof. intros img t H. apply side_in in H; [exact H|auto]. Qed.
Lemma half_in : forall img t, In t (fst (tab (adf_half img) 40 2)) \/ In t (snd (tab (adf_half img) 40 2)) -> exists h c, (h < 2)%N /\ (c < 40)%N /\ t = adf_half img h c.
Proof. intros img t H. apply side_in in H; [exact H|auto]. Qed.
Lemma mt_analysis_ch : forall ch ch' l, mt_analysis (mkMST ch l) = mt_analysis (mkMST ch' l).
Proof. reflexivity. Qed.
Lemma half_analysis : forall img h c, exists ta, tk_analysis (adf_half img h c) = Ok ta /\ ta_sector_ct ta = 11.
Proof.
  intros img h c. unfold adf_half, adf_disk. cbn [tk_set_ch tk_analysis].
  destruct (adf_analysis (mkCh (2 * c) h) (adf_track img (2 * c) h)) as (ta & E & L). exists ta. split; [|exact L].
  rewrite <- E. unfold adf_meta. cbn [mt_sectors]. apply mt_analysis_ch.
Qed.
Lemma adf_nth_side : forall img k t, nth_error (fst (tab (adf_disk img) 80 2)) k = Some t -> k < 80 /\ t = adf_disk img 0%N (N.of_nat k).
Proof.
  intros img k t H. change (fst (tab (adf_disk img) 80 2)) with (map (adf_disk img 0%N) (Nseq 80)) in H. rewrite nth_error_map, nth_error_Nseq in H.
  change (N.to_nat 80) with 80 in H. destruct (Nat.ltb_spec k 80); [|discriminate]. cbn [option_map] in H. injection H as <-. auto.
Qed.
Lemma boot_meta : forall rnd d img C F, wf d (tab F C 2) -> (0 < C)%N -> F 0%N 0%N = adf_disk img 0 0 -> read_boot_sector rnd d = Ok (slice img 512 512).
Proof.
  intros rnd d img C F W Hc HF. unfold read_boot_sector. pose proof (head0_tab d F _ _ 0%N W Hc) as H0. rewrite HF in H0.
  unfold head0 in H0. destruct (di_track d (mkCh 0 0)) as [o|e|] eqn:Et; try discriminate. subst o.
  destruct (head_track d _ Et) as (ti & l & Em & Ep). rewrite Em. unfold oindex. rewrite Ep. cbn [obind].
  destruct (adf_read rnd (mkCh 0 0) (adf_track img 0 0) 1 None ltac:(lia) true) as (r & Er & _ & _ & _ & D). cbn [ch_c ch_h] in Er. unfold sector_query in Er.
  unfold adf_disk. rewrite Er. cbn [obind]. rewrite D, adf_at by lia. reflexivity.
Qed.
Theorem adf_kept : forall sha1 rnd img, N.of_nat (length img) = 901120%N -> bytes_ok img = true ->
  (exists k, (k < 40)%N /\ sha1 (adf_track img (2 * k) 0) <> sha1 (adf_track img (2 * k + 1) 0)) ->
  exists d, raw_load sha1 rnd img = Ok (d, boot_field (slice img 512 512)) /\ adf_state d img.
Proof.
  intros sha1 rnd img Hlen Hb (k & Hk & Hne). destruct (load_adf rnd img Hlen Hb) as (d & E & G & W).
  assert (Nz : normalize (track_hash sha1 rnd) d = Ok d).
  { apply (normalize_keep _ d _ W).
    - intros t Ht. destruct (adf_in img t (or_introl Ht)) as (h & c & A & B & ->). exists 11. split; [reflexivity|lia].
    - right. split; [reflexivity|]. exists (N.to_nat k), (adf_disk img 0 (2 * k)), (adf_disk img 0 (2 * k + 1)).
      change (fst (tab (adf_disk img) 80 2)) with (side (tab (adf_disk img) 80 2) 0). split; [|split].
      + replace (2 * N.to_nat k) with (N.to_nat (2 * k)) by lia. apply adf_side; lia.
      + replace (2 * N.to_nat k + 1) with (N.to_nat (2 * k + 1)) by lia. apply adf_side; lia.
      + unfold adf_disk. rewrite !adf_hash by (apply adf_track_length; auto; lia). exact Hne. }
  destruct (analyze_ok d _ W) as (d' & Ea).
  { intros t Ht. destruct (adf_in img t Ht) as (h & c & A & B & ->). unfold adf_disk. cbn [tk_analysis]. destruct (adf_analysis (mkCh c h) (adf_track img c h)) as (ta & -> & _). discriminate. }
  destruct (analyze_rest _ _ Ea) as (P1 & P2 & P3 & P4).
  assert (W' : wf d' (tab (adf_disk img) 80 2)) by (eapply wf_ext; [..|exact W]; assumption).
  exists d'. split; [|split; [exact W'|split; [|split; [congruence|exact Hlen]]]].
  - unfold raw_load. rewrite E. cbn [obind]. unfold post_load_process. rewrite Nz. cbn [obind]. rewrite Ea. cbn [obind].
    rewrite (boot_meta rnd d' img 80 _ W') by (auto; lia). unfold boot_field, boot_new. destruct (_ <? 512); reflexivity.
  - refine (spt_of d d' _ 11 W ltac:(lia) _ _ Ea); [discriminate|]. intros t Ht. destruct (adf_in img t Ht) as (h & c & A & B & ->). exact (adf_analysis (mkCh c h) _).
Qed.
Lemma evens_80 : forall (G : N -> DTrack), evens (map G (Nseq 80)) = map (fun c => G (2 * c)%N) (Nseq 40).
Proof. intros G. reflexivity. Qed.
Lemma numbered_40 : forall (G : N -> DTrack), numbered_from 0 (map G (Nseq 40)) = map (fun c => tk_set_ch (G c) (mkCh c (ch_h (tk_ch (G c))))) (Nseq 40).
Proof. intros G. reflexivity. Qed.
Theorem adf_halved : forall sha1 rnd img, N.of_nat (length img) = 901120%N -> bytes_ok img = true ->
  (forall k, (k < 40)%N -> sha1 (adf_track img (2 * k) 0) = sha1 (adf_track img (2 * k + 1) 0)) ->
  exists d, raw_load sha1 rnd img = Ok (d, boot_field (slice img 512 512)) /\ half_state d img.
Proof.
  intros sha1 rnd img Hlen Hb Heq. destruct (load_adf rnd img Hlen Hb) as (d & E & G & W).
  destruct (normalize_drop (track_hash sha1 rnd) d _ W) as (p & Nz).
  { intros t Ht. destruct (adf_in img t Ht) as (h & c & A & B & ->). exists 11. split; [reflexivity|lia]. }
  { reflexivity. } { cbn [tab snd]. change (2 <? 2)%N with false. cbn iota. rewrite map_length, Nseq_length. lia. }
  { intros k t0 t1 H0 H1. apply adf_nth_side in H0 as [K0 ->]. apply adf_nth_side in H1 as [K1 ->]. unfold adf_disk.
    rewrite !adf_hash by (apply adf_track_length; auto; lia). specialize (Heq (N.of_nat k) ltac:(lia)).
    replace (N.of_nat (2 * k)) with (2 * N.of_nat k)%N by lia. replace (N.of_nat (2 * k + 1)) with (2 * N.of_nat k + 1)%N by lia. exact Heq. }
  set (d1 := with_pool (drop_odd d) p) in *.
  assert (Hd1 : length (di_map0 d1) = 40).
  { change (di_map0 d1) with (di_map0 (drop_odd d)). destruct (drop_odd_wf _ _ W) as [_ [S0 _]]. rewrite (map_some_len _ _ _ S0). reflexivity. }
  assert (W1 : wf d1 (tab (adf_half img) 40 2)).
  { destruct (normalize_wf _ _ _ _ W Nz) as [X|X].
    - exfalso. rewrite X in Hd1. destruct W as [_ [S0 _]]. rewrite (map_some_len _ _ _ S0) in Hd1. discriminate Hd1.
    - replace (tab (adf_half img) 40 2) with (numbered_from 0 (evens (fst (tab (adf_disk img) 80 2))), numbered_from 0 (evens (snd (tab (adf_disk img) 80 2)))); [exact X|].
      unfold tab. change (2 <? 2)%N with false. cbn [fst snd]. rewrite !evens_80, !numbered_40. reflexivity. }
  destruct (analyze_ok d1 _ W1) as (d' & Ea).
  { intros t Ht. destruct (half_in img t Ht) as (h & c & A & B & ->). destruct (half_analysis img h c) as (ta & -> & _). discriminate. }
  destruct (analyze_rest _ _ Ea) as (P1 & P2 & P3 & P4).
  assert (W' : wf d' (tab (adf_half img) 40 2)) by (eapply wf_ext; [..|exact W1]; assumption).
  exists d'. split; [|split; [exact W'|split]].
  - unfold raw_load. rewrite E. cbn [obind]. unfold post_load_process. rewrite Nz. cbn [obind]. rewrite Ea. cbn [obind].
    rewrite (boot_meta rnd d' img 40 _ W') by (auto; lia). unfold boot_field, boot_new. destruct (_ <? 512); reflexivity.
  - refine (spt_of d1 d' _ 11 W1 ltac:(lia) _ _ Ea); [discriminate|]. intros t Ht. destruct (half_in img t Ht) as (h & c & A & B & ->). apply half_analysis.
  - rewrite P4. unfold d1, drop_odd. cbn [di_geom with_pool with_geom]. change (di_geom (remove_odd_tracks d)) with (di_geom d). rewrite G. cbn [ch_h]. f_equal.
    change (di_map0 (remove_odd_tracks d)) with (di_map0 d1). rewrite Hd1. reflexivity.
Qed.
(* ---- saving ---- *)
Definition boot_names (boot : option BootSector) : option StandardFormat := match boot with Some b => boot_standard_format b | None => None end.
Lemma map0_len : forall d F C H, (H = 1 \/ H = 2)%N -> wf d (tab F C H) -> N.of_nat (length (di_map0 d)) = C.
Proof.
  intros d F C H HH W. destruct W as [_ [S0 _]]. rewrite (map_some_len _ _ _ S0). change (fst (tab F C H)) with (side (tab F C H) 0). rewrite tab_side_length by (auto; lia). lia.
Qed.
Lemma adf_closest : forall d flat boot trust, adf_state d flat -> boot_names boot = None -> closest_format d boot trust = Some AmigaFloppy880.
Proof.
  intros d flat boot trust (W & Sp & G & _) Hb. unfold closest_format. fold (boot_names boot). rewrite Hb, Sp, G, (map0_len d _ _ _ (or_intror eq_refl) W).
  change (normalized_track_ct 80) with (Some 80%N). cbn [ch_h]. change (sf_of_chs (mkChs 80 2 (as_u8 11))) with (Some AmigaFloppy880).
  cbn [is_some orb osf_eqb andb negb]. rewrite andb_false_r. reflexivity.
Qed.
Lemma half_closest : forall d img boot trust, half_state d img -> boot_names boot = None -> closest_format d boot trust = None.
Proof.
  intros d img boot trust (W & Sp & G) Hb. unfold closest_format. fold (boot_names boot). rewrite Hb, Sp, G, (map0_len d _ _ _ (or_intror eq_refl) W).
  change (normalized_track_ct 40) with (Some 40%N). cbn [ch_h]. change (sf_of_chs (mkChs 40 2 (as_u8 11))) with (@None StandardFormat). reflexivity.
Qed.
Lemma names_field : forall s, boot_names (boot_field s) = names_format s.
Proof. intros s. rewrite names_boot. reflexivity. Qed.

(* ---- edits ---- *)
Lemma nth_upd_map : forall (G : N -> MetaSector) n (s : N) x, (s < n)%N -> upd (map G (Nseq n)) (N.to_nat s) x = map (fun i => if (i =? s)%N then x else G i) (Nseq n).
Proof.
  intros G n s x Hs. apply list_eq_nth_error. intros j. rewrite nth_error_map, nth_error_Nseq. destruct (Nat.eq_dec j (N.to_nat s)) as [->|Hj].
  - rewrite nth_error_upd_same by (rewrite map_length, Nseq_length; lia). destruct (Nat.ltb_spec (N.to_nat s) (N.to_nat n)); [|lia]. cbn [option_map]. rewrite N2Nat.id, N.eqb_refl. reflexivity.
  - rewrite nth_error_upd_other by auto. rewrite nth_error_map, nth_error_Nseq. destruct (j <? N.to_nat n); [|reflexivity]. cbn [option_map].
    destruct (N.eqb_spec (N.of_nat j) s); [lia|reflexivity].
Qed.
Lemma adf_write : forall ch pat s data, (s < 11)%N -> length pat = 11 * 512 -> length data = 512 ->
  exists w, mt_write_sector (adf_meta ch pat) (sector_query (ch_c ch) (ch_h ch) s) data false = Ok (adf_meta ch (splice pat (N.to_nat s * 512) data), 1%N, w) /\
    wr_not_found w = false /\ wr_address_crc_error w = false /\ wr_no_dam w = false.
Proof.
  intros ch pat s data Hs Hp Hd.
  assert (Q : upd (mt_sectors (adf_meta ch pat)) (N.to_nat s)
     (mkMS (mkChsn (mkChs (ch_c ch) (ch_h ch) s) 2) false false false false data (mask_empty 512) (mask_empty 512)) =
     map (adf_sector ch (splice pat (N.to_nat s * 512) data)) (Nseq 11)).
  { cbn [adf_meta mt_sectors]. rewrite nth_upd_map by exact Hs. apply map_ext_in. intros i Hi. apply in_Nseq in Hi. destruct (N.eqb_spec i s) as [->|Hne].
    - unfold adf_sector. f_equal. rewrite <- Hd. symmetry. apply slice_splice_same. lia.
    - unfold adf_sector. f_equal. apply slice_ext. intros j Hj. rewrite nth_error_splice by lia. rewrite Hd.
      destruct (Nat.leb_spec (N.to_nat s * 512) j); [|reflexivity]. destruct (Nat.ltb_spec j (N.to_nat s * 512 + 512)); [lia|reflexivity]. }
  unfold mt_write_sector. rewrite sm_idx_eq. rewrite (proj2 (positions_only _ _ _) (adf_only ch pat s Hs)).
  unfold oindex. rewrite (adf_nth ch pat s Hs). cbn [obind]. rewrite Hd. cbn [adf_sector ms_id chsn_n ms_no_dam ms_address_error ms_data ms_data_error ms_weak ms_hole orb].
  change (n_to_bytes 2 =? N.of_nat 512)%N with true. cbn [negb]. rewrite slice_length by lia. cbn [Nat.eqb negb obind].
  change (512 =? 512) with true. cbn [negb obind]. rewrite Q. eexists. split; [reflexivity|]. cbn. auto.
Qed.
Lemma adf_write_disk : forall d img c h s data, adf_state d img -> (c < 80)%N -> (h < 2)%N -> (s < 11)%N -> length data = 512 ->
  exists d', di_write_sector_basic d (mkCh c h) (sector_query c h s) None data = (d', Ok tt) /\ adf_state d' (splice img (N.to_nat (adf_no c h s * 512)) data).
Proof.
  intros d img c h s data (W & Sp & G & Hl) Hc Hh Hs Hd. destruct (wf_seek d _ (mkCh c h) _ W ltac:(cbn; lia) (adf_side img c h Hc Hh)) as (ti & Es).
  destruct (adf_write (mkCh c h) (adf_track img c h) s data Hs (adf_track_length img c h Hl Hc Hh) Hd) as (w & Ew & W1 & W2 & W3). cbn [ch_c ch_h] in Ew.
  set (t' := TMeta (adf_meta (mkCh c h) (splice (adf_track img c h) (N.to_nat s * 512) data))).
  exists (with_pool d (upd (di_pool d) ti t')). split.
  - unfold di_write_sector_basic, di_write_sector. rewrite Es. cbn [obind]. unfold adf_disk. cbn [tk_write_sector]. rewrite Ew. cbn [obind fst snd]. rewrite W1, W2, W3. reflexivity.
  - pose proof (replace_wf d _ (mkCh c h) ti _ t' W Es) as W4. rewrite replace_tab in W4 by auto.
    split; [|split; [exact Sp|split; [exact G|]]].
    + rewrite (tab_ext _ (fun h' c' => if (h' =? h)%N && (c' =? c)%N then t' else adf_disk img h' c')); [exact W4|auto|].
      intros h' c' Hh' Hc'. unfold adf_disk. destruct (N.eqb_spec h' h) as [->|Hnh]; [destruct (N.eqb_spec c' c) as [->|Hnc]|]; cbn [andb].
      * unfold t'. do 2 f_equal. unfold adf_track, adf_no. apply list_eq_nth_error. intros j. rewrite nth_slice_gen, !nth_error_splice by (rewrite ?slice_length; lia).
        rewrite nth_slice_gen. destruct (Nat.ltb_spec j (11 * 512)).
        -- destruct (Nat.leb_spec (N.to_nat (((2 * c + h) * 11 + s) * 512)) (N.to_nat ((2 * c + h) * 5632) + j)); destruct (Nat.leb_spec (N.to_nat s * 512) j); try lia; cbn [andb]; [|reflexivity].
           rewrite Hd. destruct (Nat.ltb_spec (N.to_nat ((2 * c + h) * 5632) + j) (N.to_nat (((2 * c + h) * 11 + s) * 512) + 512));
             destruct (Nat.ltb_spec j (N.to_nat s * 512 + 512)); try lia; [|reflexivity]. f_equal. lia.
        -- destruct (Nat.leb_spec (N.to_nat s * 512) j); cbn [andb]; [|reflexivity]. rewrite Hd. destruct (Nat.ltb_spec j (N.to_nat s * 512 + 512)); [lia|reflexivity].
      * do 2 f_equal. unfold adf_track, adf_no. apply slice_ext. intros j Hj. rewrite nth_error_splice by lia. rewrite Hd.
        destruct (Nat.leb_spec (N.to_nat (((2 * c + h) * 11 + s) * 512)) j); cbn [andb]; [|reflexivity].
        destruct (Nat.ltb_spec j (N.to_nat (((2 * c + h) * 11 + s) * 512) + 512)); [|reflexivity]. exfalso. lia.
      * do 2 f_equal. unfold adf_track, adf_no. apply slice_ext. intros j Hj. rewrite nth_error_splice by lia. rewrite Hd.
        destruct (Nat.leb_spec (N.to_nat (((2 * c + h) * 11 + s) * 512)) j); cbn [andb]; [|reflexivity].
        destruct (Nat.ltb_spec j (N.to_nat (((2 * c + h) * 11 + s) * 512) + 512)); [|reflexivity]. exfalso. lia.
    + rewrite splice_length; [exact Hl|]. unfold adf_no. lia.
Qed.
