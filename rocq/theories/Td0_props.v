(* Td0_props.v - C56: loading TeleDisk files. *)
From Verif Require Import Base Base_lemmas Mfm_spec Chs_model Types_model MetaSector_model MetaSector_spec BitStream_model
  DiskImage_model DiskImage_spec DiskImage_proofs Raw_model Raw4_proofs Crc_spec Crc_proofs Crc16_proofs Crc32_spec Crc32_proofs Imd_model Td0_model Td0_spec Td0_proofs Td0b_proofs.
From Coq Require Import Lia.
From Verif Require Lzhuf_model Lzhuf_spec Lzhuf_proofs Lzhuf_props Lzw_model Lzw_spec Lzw_proofs Lzw_props.

(* ---- UTF-8 ---- *)
Lemma in_range_spec lo hi b : in_range lo hi b = true <-> (lo <= b <= hi)%N.
Proof. unfold in_range. rewrite andb_true_iff, !N.leb_le. reflexivity. Qed.
Lemma utf8_ok_spec : forall f l, length l <= f -> utf8_ok f l = true <-> utf8 l.
Proof.
  induction f as [|f IH]; intros l Hl.
  - destruct l; [|cbn in Hl; lia]. split; [constructor|reflexivity].
  - split.
    + intros H. destruct l as [|b l]; [constructor|]. cbn [length] in Hl. cbn [utf8_ok] in H.
      destruct (N.ltb_spec b 0x80) as [L|L]; [constructor; [exact L|apply IH; [lia|exact H]]|].
      destruct (in_range 0xC2 0xDF b) eqn:E2.
      { apply in_range_spec in E2. destruct l as [|x l]; [discriminate|]. apply andb_prop in H as [H1 H2]. apply in_range_spec in H1.
        apply utf8_2; [exact E2|exact H1|]. apply IH; [cbn in Hl; lia|exact H2]. }
      destruct (in_range 0xE0 0xEF b) eqn:E3.
      { apply in_range_spec in E3. destruct l as [|x [|y l]]; try discriminate. apply andb_prop in H as [H H2]. apply andb_prop in H as [H1 H3].
        apply in_range_spec in H1. apply in_range_spec in H3. assert (utf8 l) by (apply IH; [cbn in Hl; lia|exact H2]). unfold continuation.
        destruct (N.eqb_spec b 0xE0) as [D1|D1], (N.eqb_spec b 0xED) as [D2|D2]; apply utf8_3; unfold continuation; try assumption; clear - H1 H3 D1 D2; lia. }
      destruct (in_range 0xF0 0xF4 b) eqn:E4; [|discriminate].
      apply in_range_spec in E4. destruct l as [|x [|y [|z l]]]; try discriminate. apply andb_prop in H as [H H2]. apply andb_prop in H as [H H4]. apply andb_prop in H as [H1 H3].
      apply in_range_spec in H1. apply in_range_spec in H3. apply in_range_spec in H4. assert (utf8 l) by (apply IH; [cbn in Hl; lia|exact H2]).
      destruct (N.eqb_spec b 0xF0) as [D1|D1], (N.eqb_spec b 0xF4) as [D2|D2]; apply utf8_4; unfold continuation; try assumption; clear - H1 H3 H4 D1 D2; lia.
    + intros H. assert (R : forall lo hi b, (lo <= b <= hi)%N -> in_range lo hi b = true) by (intros; apply in_range_spec; assumption).
      assert (Q : forall lo hi b, (b < lo)%N \/ (hi < b)%N -> in_range lo hi b = false).
      { intros lo hi b D. apply not_true_is_false. intros E. apply in_range_spec in E. lia. }
      destruct H as [|b l Hb H|b x l Hb Hx H|b x y l Hb Hx Hy H1 H2 H|b x y z l Hb Hx Hy Hz H1 H2 H]; cbn [length] in Hl; cbn [utf8_ok]; unfold continuation in *.
      * reflexivity.
      * rewrite (proj2 (N.ltb_lt _ _) Hb). apply IH; [lia|exact H].
      * rewrite (proj2 (N.ltb_ge b 0x80)) by lia. rewrite R, (R _ _ _ Hx) by exact Hb. apply IH; [lia|exact H].
      * rewrite (proj2 (N.ltb_ge b 0x80)) by lia. rewrite (Q 0xC2%N) by lia. rewrite (R _ _ _ Hb), (R _ _ _ Hy).
        rewrite (proj2 (IH l ltac:(lia)) H), !andb_true_r. apply R. destruct (N.eqb_spec b 0xE0), (N.eqb_spec b 0xED); lia.
      * rewrite (proj2 (N.ltb_ge b 0x80)) by lia. rewrite (Q 0xC2%N) by lia. rewrite (Q 0xE0%N) by lia. rewrite (R _ _ _ Hb), (R _ _ _ Hy), (R _ _ _ Hz).
        rewrite (proj2 (IH l ltac:(lia)) H), !andb_true_r. apply R. destruct (N.eqb_spec b 0xF0), (N.eqb_spec b 0xF4); lia.
Qed.
Definition nl (b : N) : N := if (b =? 0)%N then 10%N else b.
Lemma nl_hi b : (0x80 <= b)%N -> nl b = b.
Proof. intros H. unfold nl. destruct (N.eqb_spec b 0); [lia|reflexivity]. Qed.
Lemma nl_inv b c : nl b = c -> (0x80 <= c)%N -> b = c.
Proof. unfold nl. destruct (N.eqb_spec b 0); lia. Qed.
Lemma utf8_nl l : utf8 (map nl l) <-> utf8 l.
Proof.
  split.
  - intros H. remember (map nl l) as m eqn:E. revert l E.
    induction H as [|b m Hb H IH|b x m Hb Hx H IH|b x y m Hb Hx Hy H1 H2 H IH|b x y z m Hb Hx Hy Hz H1 H2 H IH]; intros l E; unfold continuation in *.
    + destruct l; [constructor|discriminate].
    + destruct l as [|b' l]; [discriminate|]. cbn [map] in E. assert (E1 : b = nl b') by congruence. constructor; [|apply IH; congruence].
      unfold nl in E1. destruct (N.eqb_spec b' 0); lia.
    + destruct l as [|b' [|x' l]]; try discriminate. cbn [map] in E. assert (E1 : nl b' = b) by congruence. assert (E2 : nl x' = x) by congruence.
      apply nl_inv in E1; [|lia]. apply nl_inv in E2; [|lia]. subst. apply utf8_2; [exact Hb|exact Hx|apply IH; congruence].
    + destruct l as [|b' [|x' [|y' l]]]; try discriminate. cbn [map] in E. assert (E1 : nl b' = b) by congruence. assert (E2 : nl x' = x) by congruence.
      assert (E3 : nl y' = y) by congruence.
      apply nl_inv in E1; [|lia]. apply nl_inv in E2; [|lia]. apply nl_inv in E3; [|lia]. subst. apply utf8_3; try assumption. apply IH; congruence.
    + destruct l as [|b' [|x' [|y' [|z' l]]]]; try discriminate. cbn [map] in E. assert (E1 : nl b' = b) by congruence. assert (E2 : nl x' = x) by congruence.
      assert (E3 : nl y' = y) by congruence. assert (E4 : nl z' = z) by congruence.
      apply nl_inv in E1; [|lia]. apply nl_inv in E2; [|lia]. apply nl_inv in E3; [|lia]. apply nl_inv in E4; [|lia]. subst. apply utf8_4; try assumption. apply IH; congruence.
  - induction 1 as [|b l Hb H IH|b x l Hb Hx H IH|b x y l Hb Hx Hy H1 H2 H IH|b x y z l Hb Hx Hy Hz H1 H2 H IH]; cbn [map]; unfold continuation in *.
    + constructor.
    + apply utf8_1; [unfold nl; destruct (N.eqb_spec b 0); lia|exact IH].
    + rewrite (nl_hi b), (nl_hi x) by lia. apply utf8_2; assumption.
    + rewrite (nl_hi b), (nl_hi x), (nl_hi y) by lia. apply utf8_3; assumption.
    + rewrite (nl_hi b), (nl_hi x), (nl_hi y), (nl_hi z) by lia. apply utf8_4; assumption.
Qed.

(* ---- the header ---- *)
Lemma len12 (l : list N) h : firstn 12 l = header_bytes h -> exists r, l = header_bytes h ++ r.
Proof. intros E. exists (skipn 12 l). rewrite <- E. symmetry. apply firstn_skipn. Qed.
Lemma div10 v : (v / 10 <? 2)%N = (v <? 20)%N.
Proof.
  destruct (N.ltb_spec v 20) as [L|L].
  - apply N.ltb_lt. apply N.div_lt_upper_bound; [discriminate|exact L].
  - apply N.ltb_ge. apply N.div_le_lower_bound; [discriminate|lia].
Qed.
Lemma bit7 x : negb (N.land x 0x80 =? 0)%N = N.testbit x 7.
Proof. exact (land_bit x 7). Qed.
(* the result of a decompressor, if there is one *)
Definition result_of (x : list N -> outcome (list N * N)) (file : list N) : option (list N * N) := match x file with Ok r => Some r | _ => None end.
Lemma load_unfold x1 x2 d h r :
  td0_load x1 x2 d (header_bytes h ++ r) =
  match expanded (result_of x1) (result_of x2) h (header_bytes h ++ r) with
  | Some (buf, total) =>
      let! rest := if has_comment h then td0_comment buf total else Ok (skipn 12 buf) in
      let! (d, cyls) := td0_loop (S (length rest)) d [] rest in
      Ok (with_geom d (mkCh (as_u16 (N.of_nat (length cyls))) (hd_heads h)))
  | None => match (if (hd_version h <? 20)%N then x1 else x2) (header_bytes h ++ r) with Panic => Panic | _ => Err ImageCorruptError end
  end.
Proof.
  unfold expanded, result_of, has_comment. remember (header_bytes h ++ r) as file eqn:E. unfold header_bytes, le16_bytes in E. 
  destruct (hd_packed h); cbn [app] in E; rewrite E at 1; cbn [td0_load]; rewrite le16_val; cbn [firstn]; rewrite (N.eqb_refl (td0_crc _ _)); cbn [negb].
  - change ((0x74 =? 0x54)%N && (0x64 =? 0x44)%N) with false. change ((0x74 =? 0x74)%N && (0x64 =? 0x64)%N) with true. cbn [orb negb].
    rewrite div10, bit7, <- E. destruct (hd_version h <? 20)%N; [destruct (x1 file) as [[buf total]| |]|destruct (x2 file) as [[buf total]| |]]; reflexivity.
  - change ((0x54 =? 0x54)%N && (0x44 =? 0x44)%N) with true. change ((0x54 =? 0x74)%N && (0x44 =? 0x64)%N) with false. cbn [orb negb].
    rewrite bit7, <- E. reflexivity.
Qed.
Lemma load_header x1 x2 d file o : bytes_ok file = true -> td0_load x1 x2 d file = o -> (exists e, o = Err e) \/ exists h, firstn 12 file = header_bytes h.
Proof.
  intros Hb H. destruct file as [|i0 [|i1 [|a0 [|a1 [|v [|a2 [|a3 [|st [|a4 [|hd [|k0 [|k1 r]]]]]]]]]]]]; try (left; eexists; symmetry; exact H).
  cbn [td0_load] in H.
  match type of H with (if ?b then _ else _) = _ => destruct b eqn:Ei; [left; eexists; symmetry; exact H|] end.
  match type of H with (if ?b then _ else _) = _ => destruct b eqn:Ek; [left; eexists; symmetry; exact H|] end.
  right. apply negb_false_iff in Ei, Ek. apply N.eqb_eq in Ek. apply orb_true_iff in Ei.
  assert (Hk0 : (k0 < 256)%N) by (do 11 (apply bytes_ok_cons in Hb as [?B Hb]); assumption).
  assert (G : exists p : bool, (if p then [0x74; 0x64] else [0x54; 0x44])%N = [i0; i1]).
  { destruct Ei as [Ei|Ei]; apply andb_prop in Ei as [E0 E1]; apply N.eqb_eq in E0; apply N.eqb_eq in E1; subst; [exists false|exists true]; reflexivity. }
  destruct G as [p Ep]. exists (mkHD p a0 a1 v a2 a3 st a4 hd). unfold header_bytes.
  cbn [hd_packed hd_seq hd_check hd_version hd_rate hd_drive hd_stepping hd_alloc hd_heads]. cbv zeta. rewrite Ep. cbn [app].
  cbn [firstn] in Ek |- *. rewrite <- Ek, le16_of by exact Hk0. reflexivity.
Qed.

(* ---- the comment ---- *)
Lemma comment_fwd buf total c rest : skipn 12 buf = comment_bytes c ++ rest -> valid_comment c -> (N.of_nat (length (cd_text c)) <= total - 10)%N ->
  td0_comment buf total = Ok rest.
Proof.
  intros Hs [Hl Hd Hu] Ht. unfold td0_comment.
  assert (H14 : skipn 14 buf = skipn 2 (skipn 12 buf)) by (rewrite skipn_skipn'; reflexivity). rewrite H14, Hs.
  unfold comment_bytes, le16_bytes. destruct (cd_date c) as [|d0 [|d1 [|d2 [|d3 [|d4 [|d5 [|]]]]]]]; try discriminate.
  cbn [app skipn]. rewrite le16_val, Nat2N.id.
  set (t := cd_text c) in *.
  replace (_ :: _ :: d0 :: d1 :: d2 :: d3 :: d4 :: d5 :: t ++ rest) with (((N.of_nat (length t) mod 256)%N :: (N.of_nat (length t) / 256)%N :: d0 :: d1 :: d2 :: d3 :: d4 :: d5 :: t) ++ rest) by reflexivity.
  rewrite read_app by reflexivity. cbn [obind]. rewrite (proj2 (N.ltb_ge _ _) Ht). rewrite read_app by reflexivity. cbn [obind].
  change (fun b => if (b =? 0)%N then 10%N else b) with nl.
  assert (El : length (map nl t) <= length t) by (rewrite map_length; apply Nat.le_refl).
  rewrite (proj2 (utf8_ok_spec _ _ El) (proj2 (utf8_nl t) Hu)). reflexivity.
Qed.
Lemma comment_bwd buf total rest : bytes_ok buf = true -> td0_comment buf total = Ok rest ->
  exists c, skipn 12 buf = comment_bytes c ++ rest /\ valid_comment c /\ (N.of_nat (length (cd_text c)) <= total - 10)%N.
Proof.
  intros Hb H. unfold td0_comment in H.
  assert (Hb2 : bytes_ok (skipn 12 buf) = true).
  { rewrite <- (firstn_skipn 12 buf), bytes_ok_app in Hb. apply andb_prop in Hb as [_ Hb]. exact Hb. }
  destruct (skipn 12 buf) as [|k0 [|k1 [|l0 [|l1 [|d0 [|d1 [|d2 [|d3 [|d4 [|d5 r]]]]]]]]]] eqn:E; try discriminate.
  destruct (read_exact _ (skipn 14 buf)) as [[? ?]| |] in H; cbn [obind] in H; try discriminate.
  destruct (N.ltb_spec (total - 10) (N.of_nat (N.to_nat (l0 + 256 * l1)))) as [L|L]; [discriminate|].
  destruct (read_exact (N.to_nat (l0 + 256 * l1)) r) as [[t r2]| |] eqn:Er; cbn [obind] in H; try discriminate. apply read_inv in Er as [-> El].
  change (fun b => if (b =? 0)%N then 10%N else b) with nl in H.
  destruct (utf8_ok (length t) (map nl t)) eqn:Eu; [|discriminate]. assert (r2 = rest) by congruence. subst r2.
  assert (B : (l0 < 256)%N /\ (l1 < 256)%N).
  { apply bytes_ok_cons in Hb2 as [_ Hb2]. apply bytes_ok_cons in Hb2 as [_ Hb2]. apply bytes_ok_cons in Hb2 as [B0 Hb2]. apply bytes_ok_cons in Hb2 as [B1 _]. auto. }
  exists (mkCD (k0, k1) t [d0; d1; d2; d3; d4; d5]). unfold comment_bytes. cbn [cd_crc cd_text cd_date fst snd]. rewrite El, N2Nat.id, le16_of by exact (proj1 B).
  split; [reflexivity|]. split; [|rewrite N2Nat.id in L; exact L].
  constructor; cbn [cd_text cd_date]; [rewrite El, N2Nat.id; clear - B; lia|reflexivity|]. apply utf8_nl. apply (utf8_ok_spec (length t)); [rewrite map_length; lia|exact Eu].
Qed.
Lemma comment_no_panic buf total : td0_comment buf total <> Panic.
Proof.
  unfold td0_comment, read_exact. destruct (skipn 12 buf) as [|k0 [|k1 [|l0 [|l1 [|d0 [|d1 [|d2 [|d3 [|d4 [|d5 r]]]]]]]]]]; try discriminate.
  destruct (_ <? _); cbn [obind]; [discriminate|]. destruct (_ <? _)%N; [discriminate|]. destruct (_ <? _); cbn [obind]; [discriminate|]. destruct (utf8_ok _ _); discriminate.
Qed.
Lemma default_wf : wf di_default ([], []). Proof. apply empty_wf; reflexivity. Qed.
Lemma default_meta : meta_only di_default. Proof. split; [reflexivity|left; reflexivity]. Qed.
Lemma loop_of x1 x2 h cm rest file : td0_file (result_of x1) (result_of x2) h cm rest file ->
  td0_load x1 x2 di_default file =
  (let! (d, cyls) := td0_loop (S (length rest)) di_default [] rest in Ok (with_geom d (mkCh (as_u16 (N.of_nat (length cyls))) (hd_heads h)))) /\
  bytes_ok rest = true.
Proof.
  intros [Hh (buf & total & Ex & Hb & Hs & Hc)]. destruct (len12 _ _ Hh) as [r Ef]. split.
  - rewrite Ef, load_unfold, <- Ef, Ex. destruct (has_comment h).
    + destruct (Hc eq_refl) as [Hv Hl]. rewrite (comment_fwd _ _ _ _ Hs Hv Hl). reflexivity.
    + cbn [app] in Hs. rewrite Hs. reflexivity.
  - assert (Hb2 : bytes_ok (skipn 12 buf) = true).
    { rewrite <- (firstn_skipn 12 buf), bytes_ok_app in Hb. apply andb_prop in Hb as [_ Hb]. exact Hb. }
    rewrite Hs, bytes_ok_app in Hb2. apply andb_prop in Hb2 as [_ Hb2]. exact Hb2.
Qed.
Lemma track_bytes_cyl ts tail : bytes_ok (flat_map track_bytes ts ++ tail) = true -> Forall (fun t => (td_cyl t < 256)%N) ts.
Proof.
  induction ts as [|t ts IH]; intros H; [constructor|]. cbn [flat_map] in H. rewrite <- app_assoc, bytes_ok_app in H. apply andb_prop in H as [H1 H2].
  constructor; [|apply IH; exact H2]. unfold track_bytes, track_header in H1. cbn [app] in H1. apply bytes_ok_cons in H1 as [_ H1]. apply bytes_ok_cons in H1 as [H1 _]. exact H1.
Qed.
Lemma track_lens ts : length ts <= length (flat_map track_bytes ts).
Proof. induction ts as [|t ts IH]; [cbn; lia|]. cbn [flat_map length]. rewrite app_length. pose proof (track_bytes_len t). lia. Qed.
Lemma cyl_small ts tail : bytes_ok (flat_map track_bytes ts ++ tail) = true -> as_u16 (N.of_nat (length (cylinders_of ts))) = N.of_nat (length (cylinders_of ts)).
Proof.
  intros H. apply track_bytes_cyl in H. rewrite Forall_forall in H. unfold as_u16. apply N.mod_small.
  assert (L : length (cylinders_of ts) <= length (map N.of_nat (seq 0 256))).
  { apply NoDup_incl_length; [apply NoDup_nodup|]. intros x Hx. apply nodup_In in Hx. apply in_map_iff in Hx as (t & <- & Ht). specialize (H t Ht).
    apply in_map_iff. exists (N.to_nat (td_cyl t)). split; [apply N2Nat.id|]. apply in_seq. lia. }
  rewrite map_length, seq_length in L. clear - L. lia.
Qed.

(* ---- the theorems ---- *)
Lemma load_gen : forall x1 x2 h cm ts tail file, Forall valid_track ts -> ends tail ->
  td0_file (result_of x1) (result_of x2) h cm (flat_map track_bytes ts ++ tail) file ->
  exists d', td0_load x1 x2 di_default file = Ok d' /\ maps_valid d' /\ shows d' (heads_of ts) /\
    di_geom d' = mkCh (N.of_nat (length (cylinders_of ts))) (hd_heads h).
Proof.
  intros x1 x2 h cm ts tail file HF He Hfile. destruct (loop_of _ _ _ _ _ _ Hfile) as [El Hb]. rewrite El.
  destruct (loop_fwd ts (S (length (flat_map track_bytes ts ++ tail))) di_default _ [] tail HF default_wf default_meta He) as (d & E & W & M).
  { rewrite app_length. pose proof (track_lens ts). lia. }
  rewrite E. cbn [obind]. eexists. split; [reflexivity|]. rewrite add_all_heads in W by exact HF. cbn [fst snd app] in W.
  split; [exact (proj1 W)|]. split; [exact (wf_shows _ _ (wf_ext d (with_geom d _) _ eq_refl eq_refl eq_refl W))|].
  cbn [with_geom di_geom]. rewrite cyls_count, (cyl_small ts tail Hb). reflexivity.
Qed.
Lemma only_gen : forall (x1 x2 : list N -> outcome (list N * N)) file d',
  bytes_ok file = true -> (forall buf total, x1 file = Ok (buf, total) \/ x2 file = Ok (buf, total) -> bytes_ok buf = true) ->
  td0_load x1 x2 di_default file = Ok d' ->
  exists h cm ts tail, td0_file (result_of x1) (result_of x2) h cm (flat_map track_bytes ts ++ tail) file /\ Forall valid_track ts /\ ends tail.
Proof.
  intros x1 x2 file d' Hb Hx H. destruct (load_header _ _ _ _ _ Hb H) as [[e E]|[h Eh]]; [discriminate|].
  destruct (len12 _ _ Eh) as [r Ef]. rewrite Ef, load_unfold, <- Ef in H.
  destruct (expanded (result_of x1) (result_of x2) h file) as [[buf total]|] eqn:Ex; [|destruct (if (hd_version h <? 20)%N then _ else _) in H; discriminate].
  assert (Hbb : bytes_ok buf = true).
  { unfold expanded in Ex. destruct (hd_packed h); [|assert (buf = file) by congruence; subst; exact Hb].
    unfold result_of in Ex. destruct (hd_version h <? 20)%N; [destruct (x1 file) as [p| |] eqn:E1|destruct (x2 file) as [p| |] eqn:E1]; try discriminate; apply (Hx buf total); [left|right]; congruence. }
  assert (G : exists rest cm, (let! (d, cyls) := td0_loop (S (length rest)) di_default [] rest in Ok (with_geom d (mkCh (as_u16 (N.of_nat (length cyls))) (hd_heads h)))) = Ok d' /\
    td0_file (result_of x1) (result_of x2) h cm rest file).
  { destruct (has_comment h) eqn:Ec.
    - destruct (td0_comment buf total) as [rest| |] eqn:E; cbn [obind] in H; try discriminate.
      destruct (comment_bwd _ _ _ Hbb E) as (c & E1 & E2 & E3). exists rest, c. split; [exact H|]. split; [exact Eh|]. exists buf, total. rewrite Ec. auto.
    - exists (skipn 12 buf), (mkCD (0, 0)%N [] []). split; [exact H|]. split; [exact Eh|]. exists buf, total. rewrite Ec.
      split; [exact Ex|]. split; [exact Hbb|]. split; [reflexivity|discriminate]. }
  destruct G as (rest & cm & El & Hf). destruct (loop_of _ _ _ _ _ _ Hf) as [_ Hbr].
  destruct (td0_loop (S (length rest)) di_default [] rest) as [[d c]| |] eqn:E; cbn [obind] in El; try discriminate.
  destruct (loop_cases _ _ _ _ _ _ default_wf default_meta (Nat.le_succ_diag_r _) Hbr E) as [(ts & tail & -> & He & HF & _)|[[e X]|[X _]]]; try discriminate.
  exists h, cm, ts, tail. auto.
Qed.
Lemma panics_gen : forall (x1 x2 : list N -> outcome (list N * N)) file,
  bytes_ok file = true -> (forall buf total, x1 file = Ok (buf, total) \/ x2 file = Ok (buf, total) -> bytes_ok buf = true) ->
  td0_load x1 x2 di_default file = Panic <->
  (exists h, firstn 12 file = header_bytes h /\ hd_packed h = true /\ (if (hd_version h <? 20)%N then x1 else x2) file = Panic) \/
  exists h cm ts tail, td0_file (result_of x1) (result_of x2) h cm (flat_map track_bytes ts ++ tail) file /\ Forall valid_track ts /\ bad_tail tail.
Proof.
  intros x1 x2 file Hb Hx. split.
  - intros H. destruct (load_header _ _ _ _ _ Hb H) as [[e E]|[h Eh]]; [discriminate|].
    destruct (len12 _ _ Eh) as [r Ef]. rewrite Ef, load_unfold, <- Ef in H.
    destruct (expanded (result_of x1) (result_of x2) h file) as [[buf total]|] eqn:Ex; [right|left; exists h; split; [exact Eh|]; unfold expanded in Ex;
      destruct (hd_packed h); [|discriminate]; split; [reflexivity|]; destruct ((if (hd_version h <? 20)%N then _ else _) file) eqn:Ey in H; [discriminate|discriminate|exact Ey]].
    assert (Hbb : bytes_ok buf = true).
    { unfold expanded in Ex. destruct (hd_packed h); [|assert (buf = file) by congruence; subst; exact Hb].
      unfold result_of in Ex. destruct (hd_version h <? 20)%N; [destruct (x1 file) as [p| |] eqn:E1|destruct (x2 file) as [p| |] eqn:E1]; try discriminate; apply (Hx buf total); [left|right]; congruence. }
    assert (G : exists rest cm, (let! (d, cyls) := td0_loop (S (length rest)) di_default [] rest in Ok (with_geom d (mkCh (as_u16 (N.of_nat (length cyls))) (hd_heads h)))) = Panic /\
      td0_file (result_of x1) (result_of x2) h cm rest file).
    { destruct (has_comment h) eqn:Ec.
      - destruct (td0_comment buf total) as [rest| |] eqn:E; cbn [obind] in H; try discriminate; [|exfalso; exact (comment_no_panic _ _ E)].
        destruct (comment_bwd _ _ _ Hbb E) as (c & E1 & E2 & E3). exists rest, c. split; [exact H|]. split; [exact Eh|]. exists buf, total. rewrite Ec. auto.
      - exists (skipn 12 buf), (mkCD (0, 0)%N [] []). split; [exact H|]. split; [exact Eh|]. exists buf, total. rewrite Ec.
        split; [exact Ex|]. split; [exact Hbb|]. split; [reflexivity|discriminate]. }
    destruct G as (rest & cm & El & Hf). destruct (loop_of _ _ _ _ _ _ Hf) as [_ Hbr].
    destruct (td0_loop (S (length rest)) di_default [] rest) as [[d c]| |] eqn:E; cbn [obind] in El; try discriminate.
    destruct (loop_cases _ _ _ _ _ _ default_wf default_meta (Nat.le_succ_diag_r _) Hbr E) as [(ts & tail & -> & He & HF & dd & cc & X)|[[e X]|[_ (ts & tail & -> & HF & X)]]]; try discriminate.
    exists h, cm, ts, tail. auto.
  - intros [(h & Eh & Hp & E)|(h & cm & ts & tail & Hf & HF & Ht)].
    { destruct (len12 _ _ Eh) as [r Ef]. rewrite Ef, load_unfold, <- Ef. unfold expanded, result_of. rewrite Hp, E.
      destruct (hd_version h <? 20)%N; rewrite E; reflexivity. } destruct (loop_of _ _ _ _ _ _ Hf) as [-> Hbr].
    rewrite (loop_bad ts _ _ _ _ tail HF default_wf default_meta); [reflexivity| |exact Ht|].
    + rewrite bytes_ok_app in Hbr. apply andb_prop in Hbr as [_ Hbr]. exact Hbr.
    + rewrite app_length. pose proof (track_lens ts). lia.
Qed.
(* strings of LZW codes are bytes *)
Lemma phrases_bytes codes : forall ps r, Lzw_spec.phrases ps codes = Some r -> Forall (Forall (fun b => (b < 256)%N)) ps -> Forall (Forall (fun b => (b < 256)%N)) r.
Proof.
  induction codes as [|c codes IH]; intros ps r E F; cbn [Lzw_spec.phrases] in E; [assert (ps = r) by congruence; subst; exact F|].
  destruct (Lzw_spec.phrase ps c) as [s|] eqn:Es; [|discriminate]. apply (IH _ _ E). apply Forall_app. split; [exact F|]. constructor; [|constructor].
  unfold Lzw_spec.phrase in Es. destruct (N.ltb_spec c 256) as [L|L].
  - assert (Es2 : [c] = s) by congruence. subst s. constructor; [exact L|constructor].
  - destruct (nth_error ps (N.to_nat (c - 256))) as [p|] eqn:Ep; [|discriminate].
    pose proof (proj1 (Forall_forall _ _) F p (nth_error_In _ _ Ep)) as Fp.
    assert (Es2 : p ++ [hd 0%N (nth (S (N.to_nat (c - 256))) ps p)] = s) by congruence. subst s. apply Forall_app. split; [exact Fp|]. constructor; [|constructor].
    assert (Fq : Forall (fun b => (b < 256)%N) (nth (S (N.to_nat (c - 256))) ps p)).
    { destruct (nth_in_or_default (S (N.to_nat (c - 256))) ps p) as [I|I]; [exact (proj1 (Forall_forall _ _) F _ I)|rewrite I; exact Fp]. }
    destruct (nth (S (N.to_nat (c - 256))) ps p) as [|x q]; [reflexivity|exact (Forall_inv Fq)].
Qed.
Lemma expansion_bytes chunks : forall out, Lzw_spec.expansion chunks = Some out -> Forall (fun b => (b < 256)%N) out.
Proof.
  induction chunks as [|codes chunks IH]; intros out E; cbn [Lzw_spec.expansion] in E; [assert ([] = out) by congruence; subst; constructor|].
  destruct (Lzw_spec.phrases [] codes) as [ps|] eqn:Ep; [|discriminate]. destruct (Lzw_spec.expansion chunks) as [o|]; [|discriminate].
  assert (E2 : concat ps ++ o = out) by congruence. subst out. apply Forall_app. split; [|apply IH; reflexivity].
  pose proof (phrases_bytes codes [] ps Ep (Forall_nil _)) as F. clear - F. induction F; cbn [concat]; [constructor|]. apply Forall_app. split; assumption.
Qed.

(* decompression gives bytes *)
Lemma lzw_bytes file buf total : (12 <= N.of_nat (length file))%N -> Lzw_model.lzw_expand file = Ok (buf, total) -> bytes_ok buf = true.
Proof.
  intros L E. destruct (N.le_gt_cases (N.of_nat (length file)) 3000012) as [L2|L2].
  - destruct (Lzw_proofs.chunked_exists (Lzw_spec.lsb_body file)) as [chunks C]. rewrite (Lzw_proofs.lzw_expand_ok file chunks (conj L L2) C) in E.
    destruct (Lzw_spec.expansion chunks) as [out|] eqn:Ex.
    + rewrite (Lzw_proofs.result_some [] chunks out Ex) in E. cbn [obind app] in E.
      assert (B : bytes_ok out = true) by (apply bytes_ok_Forall; exact (expansion_bytes _ _ Ex)).
      destruct out as [|b o]; injection E as <- _; [reflexivity|]. exact B.
    + destruct (Lzw_proofs.expansion_none chunks Ex) as [a [codes [b [r [E1 [E2 E3]]]]]]. rewrite E1, (Lzw_proofs.result_app [] a _ r E2) in E.
      cbn [Lzw_proofs.result] in E. rewrite E3 in E. destruct (Lzw_spec.starts_with_byte codes); discriminate.
  - unfold Lzw_model.lzw_expand in E. destruct (N.ltb_spec (N.of_nat (length file)) 12); [discriminate|]. destruct (N.ltb_spec 3000000 (N.of_nat (length file) - 12)); [discriminate|lia].
Qed.
Lemma bytes_gen file h : firstn 12 file = header_bytes h -> forall buf total,
  Lzw_model.lzw_expand file = Ok (buf, total) \/ Lzhuf_model.lzhuf_expand file = Ok (buf, total) -> bytes_ok buf = true.
Proof.
  intros Hh buf total [E|E].
  - apply (lzw_bytes file buf total); [|exact E]. apply (f_equal (@length N)) in Hh. rewrite firstn_length in Hh.
    assert (Lh : length (header_bytes h) = 12) by (unfold header_bytes; destruct (hd_packed h); reflexivity). rewrite Lh in Hh. clear - Hh. lia.
  - exact (proj1 (Lzhuf_props.C57_expand_bytes _ _ _ E)).
Qed.
(* a TeleDisk file: compressed ones hold what the LZW (C60) or LZHUF (C57) expander makes of them *)
Definition is_td0 : HeaderDesc -> CommentDesc -> list N -> list N -> Prop := td0_file (result_of Lzw_model.lzw_expand) (result_of Lzhuf_model.lzhuf_expand).
(* Every file of valid tracks is loaded: the tracks of each head in the order of the file, and in each track the sectors that have
   data, with the id of their header, exactly the data of their record, and the error / deleted flags. *)
Theorem C56_load : forall h cm ts tail file, Forall valid_track ts -> ends tail ->
  is_td0 h cm (flat_map track_bytes ts ++ tail) file ->
  exists d', td0_load_image di_default file = Ok d' /\ maps_valid d' /\ shows d' (heads_of ts) /\
    di_geom d' = mkCh (N.of_nat (length (cylinders_of ts))) (hd_heads h).
Proof. exact (load_gen _ _). Qed.
(* Conversely, only such files are accepted. *)
Theorem C56_only_valid_files : forall file d', bytes_ok file = true -> td0_load_image di_default file = Ok d' ->
  exists h cm ts tail, is_td0 h cm (flat_map track_bytes ts ++ tail) file /\ Forall valid_track ts /\ ends tail.
Proof.
  intros file d' Hb H. destruct (load_header _ _ _ _ _ Hb H) as [[e E]|[h Eh]]; [discriminate|].
  exact (only_gen _ _ file d' Hb (bytes_gen file h Eh) H).
Qed.
(* The loader panics exactly when a run-length record goes past the end of its sector: after valid tracks, a track header with a good
   check byte, and valid sectors, a sector whose literal block or pattern copy crosses the end; or when a file below version 2 has
   a chunk starting with a code that is not a byte (after chunks without errors). *)
Theorem C56_panics : forall file, bytes_ok file = true ->
  td0_load_image di_default file = Panic <->
  (exists h chunks codes more out, firstn 12 file = header_bytes h /\ hd_packed h = true /\ (hd_version h < 20)%N /\ (N.of_nat (length file) <= 3000012)%N /\
    Lzw_spec.chunked (Lzw_spec.lsb_body file) (chunks ++ codes :: more) /\ Lzw_spec.expansion chunks = Some out /\ Lzw_spec.starts_with_byte codes = false) \/
  exists h cm ts tail, is_td0 h cm (flat_map track_bytes ts ++ tail) file /\ Forall valid_track ts /\ bad_tail tail.
Proof.
  intros file Hb.
  assert (L12 : forall h, firstn 12 file = header_bytes h -> (12 <= N.of_nat (length file))%N).
  { intros h Hh. apply (f_equal (@length N)) in Hh. rewrite firstn_length in Hh.
    assert (Lh : length (header_bytes h) = 12) by (unfold header_bytes; destruct (hd_packed h); reflexivity). rewrite Lh in Hh. clear - Hh. lia. }
  split.
  - intros H. destruct (load_header _ _ _ _ _ Hb H) as [[e E]|[h Eh]]; [discriminate|].
    destruct (proj1 (panics_gen _ _ file Hb (bytes_gen file h Eh)) H) as [(h2 & Eh2 & Hp & E)|R]; [left|right; exact R].
    destruct (N.ltb_spec (hd_version h2) 20) as [V|V].
    + destruct (N.le_gt_cases (N.of_nat (length file)) 3000012) as [L2|L2].
      * destruct (Lzw_props.C60_chunked file) as [all C].
        destruct (proj1 (Lzw_props.C60_panics file all (conj (L12 _ Eh2) L2) C) E) as (a & codes & b & out & -> & E2 & E3).
        exists h2, a, codes, b, out. auto 10.
      * rewrite (Lzw_props.C60_size file (or_intror L2)) in E. discriminate.
    + destruct (Lzhuf_proofs.lzhuf_expand_ok file (L12 _ Eh2)) as (? & ? & ? & X & _). rewrite X in E. discriminate.
  - intros [(h & a & codes & b & out & Eh & Hp & V & L2 & C & E2 & E3)|(h & R)].
    + apply (proj2 (panics_gen _ _ file Hb (bytes_gen file h Eh))). left. exists h. split; [exact Eh|]. split; [exact Hp|].
      rewrite (proj2 (N.ltb_lt _ _) V). apply (proj2 (Lzw_props.C60_panics file _ (conj (L12 _ Eh) L2) C)). exists a, codes, b, out. auto.
    + destruct R as (cm & ts & tail & R). assert (Eh : firstn 12 file = header_bytes h) by exact (tf_header _ _ _ _ _ _ (proj1 R)).
      apply (proj2 (panics_gen _ _ file Hb (bytes_gen file h Eh))). right. exists h, cm, ts, tail. exact R.
Qed.
(* the content of a file, from which the compressor chose its tokens or codes *)
Definition content (h : HeaderDesc) (cm : CommentDesc) (ts : list TrackDesc) (tail : list N) : list N :=
  (if has_comment h then comment_bytes cm else []) ++ flat_map track_bytes ts ++ 255%N :: tail.
Lemma content_is_td0 h cm ts tail more file : hd_packed h = true -> (has_comment h = true -> valid_comment cm) -> firstn 12 file = header_bytes h ->
  bytes_ok (content h cm ts tail ++ more) = true ->
  result_of (if (hd_version h <? 20)%N then Lzw_model.lzw_expand else Lzhuf_model.lzhuf_expand) file = Some (repeat 0%N 12 ++ content h cm ts tail ++ more, N.of_nat (length (content h cm ts tail ++ more))) ->
  is_td0 h cm (flat_map track_bytes ts ++ 255%N :: tail ++ more) file.
Proof.
  intros Hp Hc Eh Hb Ex. constructor; [exact Eh|]. eexists _, _. unfold expanded. rewrite Hp.
  split; [destruct (hd_version h <? 20)%N; exact Ex|]. split; [rewrite bytes_ok_app, Hb; reflexivity|]. split.
  - change (skipn 12 (repeat 0%N 12 ++ content h cm ts tail ++ more)) with (content h cm ts tail ++ more). unfold content. rewrite <- !app_assoc. reflexivity.
  - intros Hh. split; [exact (Hc Hh)|]. unfold content. rewrite Hh, !app_length. unfold comment_bytes. rewrite !app_length. destruct (Hc Hh) as [_ Hd _]. rewrite Hd. cbn [length le16_bytes]. lia.
Qed.
Lemma lzhuf_gen : forall h cm ts tail tokens, hd_packed h = true -> (20 <= hd_version h)%N -> (has_comment h = true -> valid_comment cm) -> Forall valid_track ts ->
  (exists bytes extra, Lzhuf_props.encode_tokens tokens = Ok bytes /\ bytes_ok bytes = true /\
    Lzhuf_model.lzhuf_expand (header_bytes h ++ bytes) = Ok (Lzhuf_props.expanded (Lzhuf_spec.lz (tokens ++ extra))) /\ length extra <= 7 /\ Forall Lzhuf_spec.token_ok extra) -> Lzhuf_spec.lz tokens = content h cm ts tail ->
  exists bytes d', Lzhuf_props.encode_tokens tokens = Ok bytes /\ td0_load_image di_default (header_bytes h ++ bytes) = Ok d' /\ maps_valid d' /\ shows d' (heads_of ts).
Proof.
  intros h cm ts tail tokens Hp Hv Hc HF HR HE.
  assert (Lh : length (header_bytes h) = 12) by (unfold header_bytes; destruct (hd_packed h); reflexivity).
  destruct HR as (bytes & extra & E1 & _ & E3 & _ & _).
  destruct (Lzhuf_props.C58_expanded_starts tokens extra) as [more Em]. rewrite Em, HE in E3.
  assert (Hne : exists b o, content h cm ts tail ++ more = b :: o).
  { destruct (content h cm ts tail ++ more) as [|b o] eqn:E; [|exists b, o; reflexivity]. apply (f_equal (@length N)) in E. unfold content in E.
    rewrite !app_length in E. cbn [length] in E. clear - E. lia. }
  assert (Ex : Lzhuf_props.expanded (content h cm ts tail ++ more) = (repeat 0%N 12 ++ content h cm ts tail ++ more, N.of_nat (length (content h cm ts tail ++ more)))).
  { destruct Hne as (b & o & E). rewrite E. reflexivity. }
  rewrite Ex in E3.
  assert (Hb : bytes_ok (content h cm ts tail ++ more) = true).
  { pose proof (proj1 (Lzhuf_props.C57_expand_bytes _ _ _ E3)) as B. rewrite bytes_ok_app in B. apply andb_prop in B as [_ B]. exact B. }
  destruct (C56_load h cm ts (255%N :: tail ++ more) (header_bytes h ++ bytes) HF) as (d' & A1 & A2 & A3 & _).
  - right. eexists. reflexivity.
  - apply content_is_td0; [exact Hp|exact Hc| |exact Hb|].
    + rewrite <- Lh, firstn_app, Nat.sub_diag, firstn_O, app_nil_r, firstn_all. reflexivity.
    + rewrite (proj2 (N.ltb_ge _ _) Hv). unfold result_of. rewrite E3. reflexivity.
  - exists bytes, d'. auto.
Qed.
Lemma header_len h : length (header_bytes h) = 12.
Proof. unfold header_bytes. destruct (hd_packed h); reflexivity. Qed.
(* A file of version 2 compressed by the LZHUF coder, whatever tokens were chosen for its content, loads as that content. *)
Theorem C56_lzhuf_files : forall h cm ts tail tokens, hd_packed h = true -> (20 <= hd_version h)%N -> (has_comment h = true -> valid_comment cm) -> Forall valid_track ts ->
  Forall Lzhuf_spec.token_ok tokens -> (N.of_nat (length tokens) <= 3867)%N -> Lzhuf_spec.lz tokens = content h cm ts tail ->
  exists bytes d', Lzhuf_props.encode_tokens tokens = Ok bytes /\ td0_load_image di_default (header_bytes h ++ bytes) = Ok d' /\ maps_valid d' /\ shows d' (heads_of ts).
Proof.
  intros h cm ts tail tokens Hp Hv Hc HF HT HL HE. apply (lzhuf_gen h cm ts tail); try assumption.
  apply Lzhuf_props.C58_round_trip; [apply header_len|exact HT|exact HL].
Qed.
(* The same for files of any size, as long as no codeword the coder needs is longer than the 16 bits it can write. *)
Theorem C56_lzhuf_files_long :
  exists tree : list nat -> Lzhuf_spec.ctree,
    (forall past, Forall (fun y => y < 314) past -> Lzhuf_spec.huffman_tree 314 (Lzhuf_spec.counts 314 past) (tree past)) /\
    forall h cm ts tail tokens, hd_packed h = true -> (20 <= hd_version h)%N -> (has_comment h = true -> valid_comment cm) -> Forall valid_track ts ->
      Forall Lzhuf_spec.token_ok tokens -> (N.of_nat (length tokens) <= 71582787)%N ->
      (forall a t b w, tokens = a ++ t :: b -> Lzhuf_spec.codeword (tree (map Lzhuf_spec.token_symbol a)) (Lzhuf_spec.token_symbol t) w -> length w <= 16) ->
      Lzhuf_spec.lz tokens = content h cm ts tail ->
      exists bytes d', Lzhuf_props.encode_tokens tokens = Ok bytes /\ td0_load_image di_default (header_bytes h ++ bytes) = Ok d' /\ maps_valid d' /\ shows d' (heads_of ts).
Proof.
  destruct Lzhuf_props.C58_round_trip_long as (tree & T1 & T2). exists tree. split; [exact T1|].
  intros h cm ts tail tokens Hp Hv Hc HF HT HL HS HE. apply (lzhuf_gen h cm ts tail); try assumption.
  apply T2; [apply header_len|exact HT|exact HL|exact HS].
Qed.
(* A file below version 2 whose LZW codes stand for its content loads as that content. *)
Theorem C56_lzw_files : forall h cm ts tail chunks file, hd_packed h = true -> (hd_version h < 20)%N -> (has_comment h = true -> valid_comment cm) -> Forall valid_track ts ->
  firstn 12 file = header_bytes h -> (N.of_nat (length file) <= 3000012)%N -> Lzw_spec.chunked (Lzw_spec.lsb_body file) chunks -> Lzw_spec.expansion chunks = Some (content h cm ts tail) ->
  exists d', td0_load_image di_default file = Ok d' /\ maps_valid d' /\ shows d' (heads_of ts).
Proof.
  intros h cm ts tail chunks file Hp Hv Hc HF Eh L2 C E.
  assert (L : (12 <= N.of_nat (length file))%N).
  { pose proof (f_equal (@length N) Eh) as Hh. rewrite firstn_length in Hh.
    assert (Lh : length (header_bytes h) = 12) by (unfold header_bytes; destruct (hd_packed h); reflexivity). rewrite Lh in Hh. clear - Hh. lia. }
  pose proof (Lzw_props.C60_expands file chunks _ (conj L L2) C E) as E3.
  assert (Hne : exists b o, content h cm ts tail = b :: o).
  { destruct (content h cm ts tail) as [|b o] eqn:E4; [|exists b, o; reflexivity]. apply (f_equal (@length N)) in E4. unfold content in E4.
    rewrite !app_length in E4. cbn [length] in E4. clear - E4. lia. }
  assert (Ex : Lzw_props.lzw_expanded (content h cm ts tail) = (repeat 0%N 12 ++ content h cm ts tail, N.of_nat (length (content h cm ts tail)))).
  { destruct Hne as (b & o & E4). rewrite E4. reflexivity. }
  rewrite Ex in E3.
  destruct (C56_load h cm ts (255%N :: tail ++ []) file HF) as (d' & A1 & A2 & A3 & _).
  - right. eexists. reflexivity.
  - apply content_is_td0; [exact Hp|exact Hc|exact Eh| |].
    + rewrite app_nil_r. apply bytes_ok_Forall. exact (expansion_bytes _ _ E).
    + rewrite (proj2 (N.ltb_lt _ _) Hv), app_nil_r. unfold result_of. rewrite E3. reflexivity.
  - exists d'. auto.
Qed.
(* The checksum is a polynomial remainder, so two headers (or track headers, ...) that differ within 16 consecutive bits have different checksums. *)
Theorem C56_checksum : forall data, bytes_ok data = true -> is_rem 16 0x1A097 (bits_val (bits_of data) * 2 ^ 16) (td0_crc data 0).
Proof.
  intros data H. rewrite td0_crc_crcb by (auto; reflexivity).
  pose proof (crcb_rem 16 0xA097 HW16 HGtd 0 (bits_of data) ltac:(reflexivity)) as R. rewrite N.mul_0_l, N.lxor_0_l in R. exact R.
Qed.
Theorem C56_header_burst : forall a b, bytes_ok a = true -> bytes_ok b = true -> burst bits_of 16 a b -> td0_crc a 0 <> td0_crc b 0.
Proof.
  intros a b Ha Hb (Hl & Hne & p & Hp) H. rewrite !td0_crc_crcb in H by (auto; reflexivity).
  pose proof (crcb_linear 16 0xA097 HW16 HGtd 0 0 (bits_of a) (bits_of b)) as E.
  assert (Hlb : length (bits_of a) = length (bits_of b)) by (rewrite !Mfm_proofs.bits_of_length; lia).
  specialize (E Hlb). rewrite H, !N.lxor_nilpotent in E. symmetry in E. revert E.
  assert (Hd : forall i, nth i (map (fun p => xorb (fst p) (snd p)) (combine (bits_of a) (bits_of b))) false = xorb (nth i (bits_of a) false) (nth i (bits_of b) false)).
  { intros i. revert Hlb. generalize (bits_of a) (bits_of b). clear. intros l1. revert i. induction l1 as [|x l1 IH]; intros i [|y l2] L; try discriminate.
    - destruct i; reflexivity.
    - destruct i; [reflexivity|]. cbn [combine map nth]. apply IH. cbn in L. lia. }
  apply (crcb_burst 16 0xA097 HW16 HGtd); [reflexivity| |].
  - exists p. intros i Hi. rewrite Hd in Hi. assert (Hx : nth i (bits_of a) false <> nth i (bits_of b) false) by (intros C; rewrite C, xorb_nilpotent in Hi; discriminate).
    specialize (Hp i Hx). clear - Hp. lia.
  - destruct (in_dec Bool.bool_dec true (map (fun p => xorb (fst p) (snd p)) (combine (bits_of a) (bits_of b)))) as [I|I]; [exact I|].
    exfalso. apply Hne. apply Crc32_proofs.bits_of_inj; auto.
    assert (N0 : forall i, nth i (bits_of a) false = nth i (bits_of b) false).
    { intros i. destruct (Bool.bool_dec (nth i (bits_of a) false) (nth i (bits_of b) false)) as [X|X]; [exact X|]. exfalso. apply I.
      assert (Li : i < length (bits_of a)).
      { destruct (Nat.lt_ge_cases i (length (bits_of a))) as [Y|Y]; [exact Y|]. exfalso. apply X. rewrite !nth_overflow by lia. reflexivity. }
      assert (Ex : nth i (map (fun p => xorb (fst p) (snd p)) (combine (bits_of a) (bits_of b))) false = true).
      { rewrite Hd. revert X. destruct (nth i (bits_of a) false), (nth i (bits_of b) false); cbn; congruence. }
      rewrite <- Ex. apply nth_In. rewrite map_length, combine_length. lia. }
    eapply nth_ext; [exact Hlb|]. intros n _. apply N0.
Qed.

(* ---- where the loader falls short ---- *)
(* A single changed bit in a sector's data is not always noticed: only the low byte of the checksum is kept. *)
Theorem C56_sector_check_refuted : exists a b, bytes_ok a = true /\ bytes_ok b = true /\ length a = 128 /\ length b = 128 /\
  burst bits_of 1 a b /\ (td0_crc a 0 mod 256 = td0_crc b 0 mod 256)%N.
Proof.
  exists (repeat 0%N 128), (repeat 0%N 27 ++ 1%N :: repeat 0%N 100).
  split; [vm_compute; reflexivity|]. split; [vm_compute; reflexivity|]. split; [reflexivity|]. split; [reflexivity|]. split.
  - split; [reflexivity|]. split; [discriminate|]. exists 223. intros i.
    assert (Z : forall n k, nth k (bits_of (repeat 0%N n)) false = false).
    { induction n as [|n IH]; intros k; [destruct k; reflexivity|]. cbn [repeat bits_of flat_map]. do 8 (destruct k as [|k]; [reflexivity|]).
      change (nth (S (S (S (S (S (S (S (S k)))))))) (byte_bits 0 ++ bits_of (repeat 0%N n)) false) with (nth k (bits_of (repeat 0%N n)) false). apply IH. }
    rewrite Z. unfold bits_of. rewrite flat_map_app. intros H. destruct (Nat.lt_ge_cases i 216) as [L|L].
    + exfalso. apply H. rewrite app_nth1; [symmetry; apply Z|]. fold (bits_of (repeat 0%N 27)). rewrite Mfm_proofs.bits_of_length, repeat_length. exact L.
    + rewrite app_nth2 in H; fold (bits_of (repeat 0%N 27)) in *; rewrite Mfm_proofs.bits_of_length, repeat_length in *; [|exact L].
      change (8 * 27) with 216 in *. remember (i - 216) as k eqn:Ek. cbn [flat_map] in H.
      do 8 (destruct k as [|k]; [try (exfalso; apply H; reflexivity); clear - Ek L; lia|]).
      exfalso. apply H. fold (bits_of (repeat 0%N 100)).
      change (nth (S (S (S (S (S (S (S (S k)))))))) (byte_bits 1 ++ bits_of (repeat 0%N 100)) false) with (nth k (bits_of (repeat 0%N 100)) false). symmetry. apply Z.
  - vm_compute. reflexivity.
Qed.
(* The two bytes of a repeated pair come out exchanged. *)
Theorem C56_pair_order_refuted : exists a b l, a <> b /\ td0_data 1 128 (pair_bytes (mkPair 64 a b)) = Ok (l, []) /\ firstn 2 l = [b; a].
Proof. exists 1%N, 2%N, (concat (repeat [2%N; 1%N] 64)). split; [discriminate|]. vm_compute. auto. Qed.
(* A sector recorded without data (flags 0x10 or 0x20) disappears from the track instead of being present without data. *)
Definition plain_header (comment : bool) : HeaderDesc := mkHD false 0 0 21 0 3 (if comment then 0x80 else 0) 0 2.
Definition no_comment : CommentDesc := mkCD (0, 0)%N [] [].
Theorem C56_no_data_dropped_refuted : exists t d', td_sectors t <> [] /\ valid_track t /\
  td0_load_image di_default (header_bytes (plain_header false) ++ track_bytes t ++ [255%N]) = Ok d' /\
  di_track d' (mkCh (td_cyl t) (td_head t)) = Ok (Some (TMeta (mkMST (mkCh (td_cyl t) (td_head t)) []))).
Proof.
  set (t := mkTD 0 0 [mkSD 0 0 9 2 0x20 0 (0, 0)%N (Plain [])]).
  assert (E : exists d', td0_load_image di_default (header_bytes (plain_header false) ++ track_bytes t ++ [255%N]) = Ok d') by (eexists; vm_compute; reflexivity).
  destruct E as [d' E]. exists t, d'. split; [discriminate|]. split.
  - constructor; cbn; [lia|lia|]. constructor; [discriminate|constructor].
  - split; [exact E|]. vm_compute in E. assert (E2 := f_equal (fun o => match o with Ok d => di_track d (mkCh 0 0) | _ => Panic end) E). cbv beta iota in E2.
    exact (eq_trans (eq_sym E2) eq_refl).
Qed.
(* A comment that is not UTF-8 (TeleDisk is a DOS program: e.g. the byte 0x81, u-umlaut) makes the whole file unreadable. *)
Theorem C56_comment_refuted :
  td0_load_image di_default
    (header_bytes (plain_header true) ++ comment_bytes (mkCD (0, 0)%N [0x4D; 0x81; 0x6C; 0x6C; 0x65; 0x72]%N [89; 5; 1; 0; 0; 0]%N) ++ [255%N]) = Err FormatParseError.
Proof. vm_compute. reflexivity. Qed.
Lemma comment_crc_gen : forall x1 x2 h cm crc ts tail file file', Forall valid_track ts -> ends tail -> has_comment h = true ->
  hd_packed h = false -> (fst crc < 256 /\ snd crc < 256)%N ->
  td0_file (result_of x1) (result_of x2) h cm (flat_map track_bytes ts ++ tail) file ->
  file' = header_bytes h ++ comment_bytes (mkCD crc (cd_text cm) (cd_date cm)) ++ flat_map track_bytes ts ++ tail ->
  td0_load x1 x2 di_default file' = td0_load x1 x2 di_default file.
Proof.
  intros x1 x2 h cm crc ts tail file file' HF He Hc Hp Hcrc Hf ->.
  assert (Hf2 : td0_file (result_of x1) (result_of x2) h (mkCD crc (cd_text cm) (cd_date cm)) (flat_map track_bytes ts ++ tail)
    (header_bytes h ++ comment_bytes (mkCD crc (cd_text cm) (cd_date cm)) ++ flat_map track_bytes ts ++ tail)).
  { destruct Hf as [Hh (buf & total & Ex & Hb & Hs & Hv)]. unfold expanded in Ex. rewrite Hp in Ex.
    assert (buf = file) by congruence. assert (total = N.of_nat (length file)) by congruence. subst buf total. clear Ex.
    destruct (Hv Hc) as [[V1 V2 V3] V4].
    assert (Lh : length (header_bytes h) = 12) by (unfold header_bytes; destruct (hd_packed h); reflexivity).
    assert (F12 : forall r, firstn 12 (header_bytes h ++ r) = header_bytes h) by (intros r; rewrite <- Lh, firstn_app, Nat.sub_diag, firstn_O, app_nil_r, firstn_all; reflexivity).
    assert (S12 : forall r, skipn 12 (header_bytes h ++ r) = r) by (intros r; rewrite <- Lh, skipn_app, Nat.sub_diag, skipn_all; reflexivity).
    rewrite Hc in Hs.
    assert (Ef : file = header_bytes h ++ comment_bytes cm ++ flat_map track_bytes ts ++ tail) by (rewrite <- Hh, <- Hs; symmetry; apply firstn_skipn).
    constructor; [apply F12|]. eexists _, _. unfold expanded. rewrite Hp. split; [reflexivity|].
    assert (Eb : bytes_ok (header_bytes h ++ comment_bytes (mkCD crc (cd_text cm) (cd_date cm)) ++ flat_map track_bytes ts ++ tail) = true).
    { rewrite Ef in Hb. rewrite bytes_ok_app in Hb |- *. apply andb_prop in Hb as [B1 B2]. rewrite B1. cbn [andb].
      rewrite bytes_ok_app in B2 |- *. apply andb_prop in B2 as [B2 B3]. rewrite B3, andb_true_r.
      unfold comment_bytes in B2 |- *. cbn [cd_crc cd_text cd_date]. rewrite bytes_ok_app in B2 |- *. apply andb_prop in B2 as [_ B2]. rewrite B2, andb_true_r.
      cbn [bytes_ok forallb]. unfold is_byte. rewrite (proj2 (N.ltb_lt _ _) (proj1 Hcrc)), (proj2 (N.ltb_lt _ _) (proj2 Hcrc)). reflexivity. }
    split; [exact Eb|]. split; [rewrite S12, Hc; reflexivity|]. intros _. split; [constructor; assumption|]. cbn [cd_text].
    rewrite Ef in V4. rewrite !app_length in V4 |- *. unfold comment_bytes in V4 |- *. rewrite !app_length in V4 |- *. cbn [cd_crc cd_text cd_date length] in V4 |- *. exact V4. }
  rewrite (proj1 (loop_of _ _ _ _ _ _ Hf2)), (proj1 (loop_of _ _ _ _ _ _ Hf)). reflexivity.
Qed.
(* The header's CRC is checked, the comment's is not. *)
Theorem C56_comment_crc_ignored : forall h cm crc ts tail file file', Forall valid_track ts -> ends tail -> has_comment h = true ->
  hd_packed h = false -> (fst crc < 256 /\ snd crc < 256)%N ->
  is_td0 h cm (flat_map track_bytes ts ++ tail) file ->
  file' = header_bytes h ++ comment_bytes (mkCD crc (cd_text cm) (cd_date cm)) ++ flat_map track_bytes ts ++ tail ->
  td0_load_image di_default file' = td0_load_image di_default file.
Proof. exact (comment_crc_gen _ _). Qed.
(* Non-vacuity: a file with a comment, a track with a plain, a paired, a run-length and a missing sector; and one that panics. *)
Definition ex_pairs : Data := Pairs [mkPair 63 1 2; mkPair 1 7 9].
Definition ex_runs : Data := Runs [Literal [5; 6; 7; 8]%N; Repeated 30 [1; 2; 3; 4]%N; Repeated 2 [9; 9]%N].
Definition ex_crc (x : Data) : N := (td0_crc (data_of x) 0 mod 256)%N.
Definition ex_track : TrackDesc := mkTD 3 1
  [mkSD 3 1 1 0 0 (ex_crc (Plain (repeat 0xE5%N 128))) (129, 0)%N (Plain (repeat 0xE5%N 128));
   mkSD 3 1 2 0 2 (ex_crc ex_pairs) (9, 0)%N ex_pairs;
   mkSD 3 1 3 0 4 (ex_crc ex_runs) (17, 0)%N ex_runs;
   mkSD 3 1 4 0 0x10 0 (0, 0)%N (Plain [])].
Lemma fills_check {A} (size : nat) (f : A -> list N) (l : list A) :
  (length (flat_map f l) =? size) && forallb (fun k => length (flat_map f (firstn k l)) <? size) (seq 0 (length l)) = true -> fills size f l.
Proof.
  intros H. apply andb_prop in H as [H1 H2]. split; [apply Nat.eqb_eq; exact H1|]. intros l1 e l2 ->. rewrite forallb_forall in H2.
  specialize (H2 (length l1)). rewrite in_seq, app_length in H2. cbn [length] in H2. specialize (H2 ltac:(lia)). apply Nat.ltb_lt in H2.
  rewrite firstn_app, firstn_all, Nat.sub_diag, firstn_O, app_nil_r in H2. exact H2.
Qed.
Example C56_ex_track : valid_track ex_track.
Proof.
  constructor; [cbn; lia|reflexivity|]. repeat apply Forall_cons; try apply Forall_nil.
  - intros _. split; reflexivity.
  - intros _. split; [|reflexivity]. split; [apply fills_check; vm_compute; reflexivity|]. repeat constructor.
  - intros _. split; [|reflexivity]. split; [apply fills_check; vm_compute; reflexivity|]. repeat apply Forall_cons; try apply Forall_nil.
    + cbn. lia.
    + split; [reflexivity|]. split; [discriminate|]. exists 2. split; [lia|reflexivity].
    + split; [reflexivity|]. split; [discriminate|]. exists 1. split; [lia|reflexivity].
  - intros E. discriminate.
Qed.
Definition ex_comment : CommentDesc := mkCD (0, 0)%N [72; 105; 0; 0xC3; 0xBC]%N [89; 5; 1; 0; 0; 0]%N.
Example C56_ex_file : is_td0 (plain_header true) ex_comment (flat_map track_bytes [ex_track] ++ [255%N])
  (header_bytes (plain_header true) ++ comment_bytes ex_comment ++ flat_map track_bytes [ex_track] ++ [255%N]).
Proof.
  constructor; [reflexivity|]. eexists _, _. split; [reflexivity|]. split; [vm_compute; reflexivity|]. split; [reflexivity|]. intros _. split.
  - constructor; [reflexivity|reflexivity|]. unfold ex_comment. cbn [cd_text]. apply utf8_1; [reflexivity|]. apply utf8_1; [reflexivity|]. apply utf8_1; [reflexivity|].
    apply utf8_2; [unfold continuation; lia|unfold continuation; lia|constructor].
  - vm_compute. discriminate.
Qed.
Example C56_ex_panic : td0_load_image di_default
  (header_bytes (plain_header false) ++ [1; 0; 0; td0_crc [1; 0; 0] 0 mod 256; 0; 0; 1; 0; 0; 0; 0; 0; 2; 0; 129]%N) = Panic.
Proof. vm_compute. reflexivity. Qed.

(* compressed files: one LZW chunk of the bytes themselves, and the same content as LZHUF literals *)
Definition packed_header (v : N) : HeaderDesc := mkHD true 0 0 v 0 3 0 0 2.
Definition small_track : TrackDesc := mkTD 0 0 [mkSD 0 0 1 0 1 (ex_crc ex_runs) (17, 0)%N ex_runs].
Example C56_ex_small : valid_track small_track.
Proof.
  constructor; [cbn; lia|reflexivity|]. apply Forall_cons; [|apply Forall_nil].
  intros _. split; [|reflexivity]. split; [apply fills_check; vm_compute; reflexivity|]. repeat apply Forall_cons; try apply Forall_nil.
  - cbn. lia.
  - split; [reflexivity|]. split; [discriminate|]. exists 2. split; [lia|reflexivity].
  - split; [reflexivity|]. split; [discriminate|]. exists 1. split; [lia|reflexivity].
Qed.
Example C56_ex_lzhuf : exists bytes d', Lzhuf_props.encode_tokens (map Lzhuf_spec.Lit (content (packed_header 21) ex_comment [small_track] [])) = Ok bytes /\
  td0_load_image di_default (header_bytes (packed_header 21) ++ bytes) = Ok d' /\ maps_valid d' /\ shows d' (heads_of [small_track]).
Proof.
  apply (C56_lzhuf_files (packed_header 21) ex_comment [small_track] []); [reflexivity|discriminate|discriminate|apply Forall_cons; [exact C56_ex_small|apply Forall_nil]| | |].
  - apply Forall_forall. intros t Ht. apply in_map_iff in Ht as (b & <- & Hb). cbn [Lzhuf_spec.token_ok].
    assert (B : bytes_ok (content (packed_header 21) ex_comment [small_track] []) = true) by (vm_compute; reflexivity).
    apply bytes_ok_Forall in B. exact (proj1 (Forall_forall _ _) B b Hb).
  - vm_compute. discriminate.
  - vm_compute. reflexivity.
Qed.
Example C56_ex_lzw : Lzw_spec.expansion [content (packed_header 10) ex_comment [small_track] []] = Some (content (packed_header 10) ex_comment [small_track] []).
Proof. vm_compute. reflexivity. Qed.
Print Assumptions C56_load.
Print Assumptions C56_only_valid_files.
Print Assumptions C56_panics.
Print Assumptions C56_checksum.
Print Assumptions C56_header_burst.
Print Assumptions C56_sector_check_refuted.
Print Assumptions C56_pair_order_refuted.
Print Assumptions C56_no_data_dropped_refuted.
Print Assumptions C56_comment_refuted.
Print Assumptions C56_comment_crc_ignored.

Print Assumptions C56_lzhuf_files.
Print Assumptions C56_lzhuf_files_long.
Print Assumptions C56_lzw_files.
