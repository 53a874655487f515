(* Imd2_proofs.v - ImageDisk files. *)
From Verif Require Import Base Base_lemmas Chs_model Types_model MetaSector_model MetaSector_spec BitStream_model
  DiskImage_model DiskImage_spec DiskImage_proofs Raw_model Raw4_proofs TreeMap_proofs Pce_proofs Imd_model Imd_spec Imd_proofs.
From Coq Require Import Lia.

Lemma read_exact_inv n rest a r : read_exact n rest = Ok (a, r) -> rest = a ++ r /\ length a = n.
Proof.
  unfold read_exact. destruct (Nat.ltb_spec (length rest) n) as [L|L]; [discriminate|]. intros E.
  assert (a = firstn n rest) by congruence. assert (r = skipn n rest) by congruence. subst.
  rewrite firstn_skipn. split; [reflexivity|]. rewrite firstn_length. lia.
Qed.
Lemma read_map_inv (b : bool) n rest v a r :
  (if b then read_exact n rest else Ok (repeat v n, rest)) = Ok (a, r) ->
  rest = (if b then a else []) ++ r /\ length a = n /\ (b = false -> a = repeat v n).
Proof.
  destruct b; intros E.
  - apply read_exact_inv in E as [-> L]. split; [reflexivity|]. split; [exact L|discriminate].
  - assert (a = repeat v n) by congruence. assert (rest = r) by congruence. subst. rewrite repeat_length. auto.
Qed.
Lemma zip4_inv code : forall nums cyls heads n ss, length nums = n -> length cyls = n -> length heads = n ->
  zip4 nums cyls heads (repeat (N.of_nat (size_of code)) n) = map (entry code) ss ->
  map sd_num ss = nums /\ map sd_cyl ss = cyls /\ map sd_head ss = heads.
Proof.
  induction nums as [|x nums IH]; intros [|y cyls] [|z heads] [|n] ss Hn Hc Hh E; try discriminate.
  - destruct ss; [auto|discriminate].
  - cbn [repeat zip4] in E. destruct ss as [|s ss]; [discriminate|]. cbn [map] in E.
    assert (E1 : (x, y, z, N.of_nat (size_of code)) = entry code s) by congruence.
    assert (E2 : zip4 nums cyls heads (repeat (N.of_nat (size_of code)) n) = map (entry code) ss) by congruence.
    cbn [length] in *. destruct (IH cyls heads n ss ltac:(lia) ltac:(lia) ltac:(lia) E2) as (A & B & C).
    unfold entry in E1. cbn [map]. rewrite A, B, C. split; [congruence|]. split; congruence.
Qed.
Lemma zip4_length : forall a b c d n, length a = n -> length b = n -> length c = n -> length d = n -> length (zip4 a b c d) = n.
Proof.
  induction a as [|x a IH]; intros [|y b] [|z c] [|w d] [|n]; cbn [length zip4]; intros; try lia. f_equal. apply IH; lia.
Qed.
Lemma zip4_sizes z : forall a b c n, Forall (fun e : N * N * N * N => snd e = z) (zip4 a b c (repeat z n)).
Proof.
  induction a as [|x a IH]; intros [|y b] [|w c] [|n]; cbn [zip4 repeat]; try constructor. reflexivity. apply IH.
Qed.
Lemma add_meta_ok d ch : meta_only d -> (ch_h ch < 2)%N ->
  exists d1, add_track_metasector d ch = (d1, Ok (length (di_pool d))) /\ oindex (di_pool d1) (length (di_pool d)) = Ok (TMeta (mkMST ch [])).
Proof.
  intros [Hmul Hres] Hh. unfold add_track_metasector. destruct (N.leb_spec 2 (ch_h ch)) as [L|L]; [exfalso; clear - L Hh; lia|].
  assert (Hrej : res_rejects d RMetaSector = false) by (unfold res_rejects; rewrite Hmul; destruct Hres as [-> | ->]; reflexivity). rewrite Hrej.
  eexists. split; [reflexivity|]. unfold oindex, push_track, with_res. cbn [di_pool]. rewrite nth_error_app2, Nat.sub_diag by lia. reflexivity.
Qed.
Lemma size_some code z : imd_sector_size code = Some z -> (code < 7)%N.
Proof.
  intros H. destruct code as [|p]; [reflexivity|].
  destruct p as [[[p|p|]|[p|p|]|]|[[p|p|]|[p|p|]|]|]; try discriminate; reflexivity.
Qed.

Lemma track_bwd d hd rest d' r : meta_only d -> (im_h hd < 256)%N -> imd_track d hd rest = Ok (d', r) ->
  exists t, valid_track t /\ header_of t = hd /\ rest = body_of t ++ r.
Proof.
  intros Hmeta Hb H. destruct hd as [mode c h n size]. cbn [im_h] in Hb. unfold imd_track in H.
  destruct (imd_valid (mkImd mode c h n size)) eqn:Ev; [|discriminate]. cbn [negb] in H.
  unfold imd_valid in Ev. cbn [im_mode im_h im_size] in Ev. apply andb_prop in Ev as [Ev V3]. apply andb_prop in Ev as [V1 V2].
  apply N.ltb_lt in V1. apply N.ltb_lt in V2. apply N.ltb_lt in V3.
  destruct (head_inv h Hb V2) as (hh & hm & cm & Hh & ->).
  destruct (head_fields mode c n size hh hm cm Hh) as (E1 & E2 & E3 & E4 & _).
  cbn [im_size im_ct im_c] in H. rewrite (proj2 (size_n _ V3)) in H.
  destruct (N.leb_spec 256 (n * 2)) as [L|L]; [discriminate|].
  destruct (read_exact (N.to_nat n) rest) as [[nums r1]| |] eqn:R1; cbn [obind] in H; try discriminate.
  rewrite E3 in H.
  match type of H with obind ?e _ = _ => destruct e as [[cyls r2]| |] eqn:R2; cbn [obind] in H; try discriminate end.
  rewrite E2, E1 in H.
  match type of H with obind ?e _ = _ => destruct e as [[heads r3]| |] eqn:R3; cbn [obind] in H; try discriminate end.
  rewrite E4 in H. cbn [obind] in H.
  destruct (add_meta_ok d (mkCh c hh) Hmeta Hh) as (d1 & Ea & Eo). rewrite Ea in H. cbn [obind] in H. rewrite Eo in H. cbn [obind] in H.
  match type of H with obind ?e _ = _ => destruct e as [[m r4]| |] eqn:R4; cbn [obind] in H; try discriminate end.
  assert (r4 = r) by congruence. subst r4. clear H.
  apply read_exact_inv in R1 as [-> L1]. apply read_map_inv in R2 as (-> & L2 & V2'). apply read_map_inv in R3 as (-> & L3 & V3').
  destruct (sectors_bwd size _ _ _ _ _ (zip4_sizes _ _ _ _ _) R4) as (ss & Ez & -> & Hp).
  destruct (zip4_inv size nums cyls heads _ ss L1 L2 L3 Ez) as (<- & <- & <-). rewrite map_length in L1.
  exists (mkTD mode c hh size cm hm ss). split.
  - constructor; cbn [td_mode td_head td_size td_sectors td_cylmap td_headmap td_cyl].
    + exact V1. + exact Hh. + exact V3. + clear - L1 L. lia. + exact Hp.
    + intros Eb s Hs. specialize (V2' Eb). apply (in_map sd_cyl) in Hs. rewrite V2' in Hs. apply repeat_spec in Hs. exact Hs.
    + intros Eb s Hs. specialize (V3' Eb). apply (in_map sd_head) in Hs. rewrite V3' in Hs. apply repeat_spec in Hs. exact Hs.
  - split.
    + unfold header_of. cbn [td_mode td_head td_size td_sectors td_cylmap td_headmap td_cyl]. rewrite L1, N2Nat.id. reflexivity.
    + unfold body_of. cbn [td_mode td_head td_size td_sectors td_cylmap td_headmap td_cyl]. rewrite <- !app_assoc. reflexivity.
Qed.
Lemma read_exact_no_panic n rest : read_exact n rest <> Panic.
Proof. unfold read_exact. destruct (length rest <? n); discriminate. Qed.
Lemma track_panic d hd rest : meta_only d -> (im_h hd < 256)%N -> imd_track d hd rest = Panic ->
  imd_valid hd = true /\ (128 <= im_ct hd)%N.
Proof.
  intros Hmeta Hb H. destruct hd as [mode c h n size]. cbn [im_h] in Hb. unfold imd_track in H.
  destruct (imd_valid (mkImd mode c h n size)) eqn:Ev; [|discriminate]. split; [reflexivity|]. cbn [negb] in H.
  unfold imd_valid in Ev. cbn [im_mode im_h im_size] in Ev. apply andb_prop in Ev as [Ev V3]. apply andb_prop in Ev as [V1 V2].
  apply N.ltb_lt in V1. apply N.ltb_lt in V2. apply N.ltb_lt in V3.
  destruct (head_inv h Hb V2) as (hh & hm & cm & Hh & ->).
  destruct (head_fields mode c n size hh hm cm Hh) as (E1 & E2 & E3 & E4 & _).
  cbn [im_size im_ct im_c] in *. rewrite (proj2 (size_n _ V3)) in H.
  destruct (N.leb_spec 256 (n * 2)) as [L|L]; [clear - L; lia|exfalso].
  destruct (read_exact (N.to_nat n) rest) as [[nums r1]| |] eqn:R1; cbn [obind] in H; try discriminate; [|exact (read_exact_no_panic _ _ R1)].
  rewrite E3 in H.
  match type of H with obind ?e _ = _ => destruct e as [[cyls r2]| |] eqn:R2; cbn [obind] in H; try discriminate end;
    [|destruct cm; [exact (read_exact_no_panic _ _ R2)|discriminate]].
  rewrite E2, E1 in H.
  match type of H with obind ?e _ = _ => destruct e as [[heads r3]| |] eqn:R3; cbn [obind] in H; try discriminate end;
    [|destruct hm; [exact (read_exact_no_panic _ _ R3)|discriminate]].
  rewrite E4 in H. cbn [obind] in H.
  destruct (add_meta_ok d (mkCh c hh) Hmeta Hh) as (d1 & Ea & Eo). rewrite Ea in H. cbn [obind] in H. rewrite Eo in H. cbn [obind] in H.
  match type of H with obind ?e _ = _ => destruct e as [[m r4]| |] eqn:R4; cbn [obind] in H; try discriminate end.
  exact (sectors_no_panic _ _ _ R4).
Qed.

(* ---- the loop ---- *)
Definition add_all (s : Heads) (ts : list TrackDesc) : Heads := fold_left (fun s t => append_to s (td_head t) (track_of t)) ts s.
Definition seen_all (seen : list N) (ts : list TrackDesc) : list N := fold_left (fun s t => set_add (td_head t) s) ts seen.
Definition nonempty (t : TrackDesc) : bool := match td_sectors t with [] => false | _ => true end.
Lemma header_h t : (td_head t < 2)%N -> imd_h (header_of t) = td_head t.
Proof. intros H. exact (proj1 (head_fields _ _ _ _ _ _ _ H)). Qed.
Lemma track_bytes_len t : 5 <= length (track_bytes t).
Proof. rewrite track_bytes_parts. cbn [length]. lia. Qed.
Lemma loop_fwd : forall ts fuel d s seen ct tail, Forall valid_track ts -> wf d s -> meta_only d -> length tail < 5 ->
  length (flat_map track_bytes ts ++ tail) <= fuel ->
  exists d', imd_loop fuel d seen ct (flat_map track_bytes ts ++ tail) = Ok (d', seen_all seen ts, ct + length (filter nonempty ts)) /\
    wf d' (add_all s ts) /\ meta_only d'.
Proof.
  induction ts as [|t ts IH]; intros fuel d s seen ct tail HF Hwf Hm Ht Hf.
  - exists d. split; [|auto]. cbn [flat_map app filter length]. rewrite Nat.add_0_r. unfold seen_all. cbn [fold_left].
    destruct fuel; [reflexivity|]. destruct tail as [|? [|? [|? [|? [|]]]]]; try reflexivity. cbn [length] in Ht. lia.
  - inversion HF as [|? ? Hv HF']; subst. cbn [flat_map] in Hf |- *. rewrite <- app_assoc in Hf |- *.
    pose proof (track_bytes_len t) as L5. rewrite app_length in Hf.
    destruct fuel as [|fuel]; [exfalso; clear - L5 Hf; lia|].
    rewrite track_bytes_parts. cbn [app imd_loop].
    change (mkImd (im_mode (header_of t)) (im_c (header_of t)) (im_h (header_of t)) (im_ct (header_of t)) (im_size (header_of t))) with (header_of t).
    destruct (track_fwd d s t (flat_map track_bytes ts ++ tail) Hv Hwf Hm) as (d1 & E & W & M).
    rewrite E. cbn [obind]. rewrite header_h by exact (vt_head _ Hv).
    destruct (IH fuel d1 _ (set_add (td_head t) seen) (if (im_ct (header_of t) =? 0)%N then ct else ct + 1) tail HF' W M Ht) as (d2 & E2 & W2 & M2);
      [clear - Hf L5; lia|].
    exists d2. split; [|auto]. rewrite E2. unfold seen_all. cbn [fold_left]. f_equal. f_equal.
    change (im_ct (header_of t)) with (N.of_nat (length (td_sectors t))). cbn [filter]. unfold nonempty at 2.
    destruct (td_sectors t) as [|x y].
    + change (N.of_nat (length []) =? 0)%N with true. reflexivity.
    + replace (N.of_nat (length (x :: y)) =? 0)%N with false by (symmetry; apply N.eqb_neq; cbn [length]; lia). cbn [length]. lia.
Qed.
Lemma byte_third l a b h t : bytes_ok l = true -> l = a :: b :: h :: t -> (h < 256)%N.
Proof. intros H ->. cbn in H. unfold is_byte in H. destruct (h <? 256)%N eqn:E; [apply N.ltb_lt in E; exact E|]. rewrite !andb_false_r in H. discriminate. Qed.
Lemma loop_bwd : forall fuel d s seen ct rest d' seen' ct', wf d s -> meta_only d -> length rest <= fuel -> bytes_ok rest = true ->
  imd_loop fuel d seen ct rest = Ok (d', seen', ct') ->
  exists ts tail, rest = flat_map track_bytes ts ++ tail /\ length tail < 5 /\ Forall valid_track ts.
Proof.
  induction fuel as [fuel IH] using lt_wf_ind. intros d s seen ct rest d' seen' ct' Hwf Hm Hf Hb H.
  destruct rest as [|a [|b [|h [|n [|z r]]]]]; try (exists [], []; split; [reflexivity|split; [cbn; lia|constructor]]);
    try (match goal with |- exists ts tail, ?l = _ /\ _ /\ _ => exists [], l end; split; [reflexivity|split; [cbn; lia|constructor]]).
  destruct fuel as [|fuel]; [cbn in Hf; lia|]. cbn [imd_loop] in H.
  assert (Hh : (h < 256)%N) by (eapply byte_third; [exact Hb|reflexivity]).
  destruct (imd_track d (mkImd a b h n z) r) as [[d1 r1]| |] eqn:E; cbn [obind] in H; try discriminate.
  destruct (track_bwd _ (mkImd a b h n z) _ _ _ Hm Hh E) as (t & Hv & Eh & ->).
  assert (E' := E). rewrite <- Eh in E'. destruct (track_fwd d s t r1 Hv Hwf Hm) as (d2 & E2 & W & M).
  assert (d1 = d2) by congruence. subst d2.
  assert (Hb1 : bytes_ok r1 = true).
  { cbn in Hb. repeat (apply andb_prop in Hb as [_ Hb]). fold (bytes_ok (body_of t ++ r1)) in Hb. rewrite bytes_ok_app in Hb. apply andb_prop in Hb as [_ Hb]. exact Hb. }
  assert (Hl : length r1 <= fuel) by (cbn [length] in Hf; rewrite app_length in Hf; lia).
  destruct (IH fuel ltac:(lia) _ _ _ _ _ _ _ _ W M Hl Hb1 H) as (ts & tail & -> & Ht & HF).
  exists (t :: ts), tail. split; [|split; [exact Ht|constructor; assumption]].
  cbn [flat_map]. rewrite track_bytes_parts, Eh. cbn [im_mode im_c im_h im_ct im_size app]. rewrite <- app_assoc. reflexivity.
Qed.
Lemma loop_panic : forall fuel d s seen ct rest, wf d s -> meta_only d -> length rest <= fuel -> bytes_ok rest = true ->
  imd_loop fuel d seen ct rest = Panic ->
  exists ts hd r, rest = flat_map track_bytes ts ++ [im_mode hd; im_c hd; im_h hd; im_ct hd; im_size hd] ++ r /\ Forall valid_track ts /\
    imd_valid hd = true /\ (128 <= im_ct hd)%N.
Proof.
  induction fuel as [fuel IH] using lt_wf_ind. intros d s seen ct rest Hwf Hm Hf Hb H.
  destruct rest as [|a [|b [|h [|n [|z r]]]]]; try (destruct fuel; discriminate).
  destruct fuel as [|fuel]; [cbn in Hf; lia|]. cbn [imd_loop] in H.
  assert (Hh : (h < 256)%N) by (eapply byte_third; [exact Hb|reflexivity]).
  destruct (imd_track d (mkImd a b h n z) r) as [[d1 r1]| |] eqn:E; cbn [obind] in H; try discriminate.
  - destruct (track_bwd _ (mkImd a b h n z) _ _ _ Hm Hh E) as (t & Hv & Eh & ->).
    assert (E' := E). rewrite <- Eh in E'. destruct (track_fwd d s t r1 Hv Hwf Hm) as (d2 & E2 & W & M).
    assert (d1 = d2) by congruence. subst d2.
    assert (Hb1 : bytes_ok r1 = true).
    { cbn in Hb. repeat (apply andb_prop in Hb as [_ Hb]). fold (bytes_ok (body_of t ++ r1)) in Hb. rewrite bytes_ok_app in Hb. apply andb_prop in Hb as [_ Hb]. exact Hb. }
    assert (Hl : length r1 <= fuel) by (cbn [length] in Hf; rewrite app_length in Hf; lia).
    destruct (IH fuel ltac:(lia) _ _ _ _ _ W M Hl Hb1 H) as (ts & hd & r2 & -> & HF & Hv2 & Hc).
    exists (t :: ts), hd, r2. split; [|split; [constructor; assumption|auto]].
    cbn [flat_map]. rewrite track_bytes_parts, Eh. cbn [im_mode im_c im_h im_ct im_size app]. rewrite <- !app_assoc. reflexivity.
  - destruct (track_panic _ (mkImd a b h n z) _ Hm Hh E) as [V C]. exists [], (mkImd a b h n z), r. split; [reflexivity|]. split; [constructor|auto].
Qed.
Lemma add_all_heads : forall ts s, Forall valid_track ts ->
  add_all s ts = (fst s ++ fst (heads_of ts), snd s ++ snd (heads_of ts)).
Proof.
  induction ts as [|t ts IH]; intros s HF; [unfold add_all, heads_of; cbn; rewrite !app_nil_r; destruct s; reflexivity|].
  inversion HF as [|? ? Hv HF']; subst. unfold add_all in *. cbn [fold_left]. rewrite IH by exact HF'.
  pose proof (vt_head _ Hv) as Hh. assert (E : td_head t = 0%N \/ td_head t = 1%N) by lia.
  unfold heads_of. cbn [filter fst snd]. destruct E as [-> | ->]; change (0 =? 0)%N with true; change (0 =? 1)%N with false;
    change (1 =? 0)%N with false; change (1 =? 1)%N with true; cbn [append_to map fst snd]; rewrite <- app_assoc; reflexivity.
Qed.
Lemma seen_all_spec : forall ts seen, Forall valid_track ts -> NoDup seen -> (forall x, In x seen -> (x < 2)%N) ->
  NoDup (seen_all seen ts) /\ (forall x, In x (seen_all seen ts) <-> In x seen \/ exists t, In t ts /\ td_head t = x) /\
  (forall x, In x (seen_all seen ts) -> (x < 2)%N).
Proof.
  induction ts as [|t ts IH]; intros seen HF Hn Hx.
  - unfold seen_all. cbn [fold_left]. split; [exact Hn|]. split; [|exact Hx]. intros x. split; [auto|]. intros [H|(t & [] & _)]; exact H.
  - inversion HF as [|? ? Hv HF']; subst. unfold seen_all. cbn [fold_left]. fold (seen_all (set_add (td_head t) seen) ts).
    assert (S : NoDup (set_add (td_head t) seen) /\ (forall x, In x (set_add (td_head t) seen) <-> In x seen \/ x = td_head t)).
    { unfold set_add. destruct (existsb (N.eqb (td_head t)) seen) eqn:E.
      - apply existsb_exists in E as (y & Hy & Ey). apply N.eqb_eq in Ey. subst y. split; [exact Hn|]. intros x. split; [auto|]. intros [H| ->]; auto.
      - split.
        + apply NoDup_app_intro; [exact Hn|constructor; [intros []|constructor]|]. intros x H1 [<-|[]].
          assert (existsb (N.eqb (td_head t)) seen = true); [|congruence]. apply existsb_exists. exists (td_head t). split; [exact H1|apply N.eqb_refl].
        + intros x. rewrite in_app_iff. cbn [In]. split; [intros [H|[H|[]]]; auto|intros [H|H]; auto]. }
    destruct S as [S1 S2].
    destruct (IH (set_add (td_head t) seen) HF' S1) as (A & B & C).
    + intros x H. apply S2 in H as [H| ->]; [auto|]. exact (vt_head _ Hv).
    + split; [exact A|]. split; [|exact C]. intros x. rewrite B, S2. cbn [In]. split.
      * intros [[H|H]|(u & Hu & Eu)]; [auto|right; exists t; auto|right; exists u; auto].
      * intros [H|(u & [<-|Hu] & Eu)]; [auto|left; right; auto|right; exists u; auto].
Qed.
