(* Amiga3_proofs.v - loading the cells of an Amiga track. *)
From Verif Require Import Base Base_lemmas Chs_model BitRing_model BitRing_proofs Mfm_model Mfm_spec Mfm_proofs Marker_proofs Codec_lemmas Weak_proofs
  Crc_model Types_model System34_model BitStream_model OddEven_model Amiga_model Amiga_spec Amiga_proofs Amiga2_proofs Bs_general_proofs Bs_loaded_proofs
  Total_spec Total_proofs.
From Coq Require Import Lia.

(* the codec before the schemas are tried *)
Lemma stream_made data ct dw l : input_cells data ct = l -> l <> [] ->
  (forall i, i + 7 <= length l -> (forall k, k < 7 -> nth (i + k) l true = false) -> False) ->
  exists m, new_stream data None ct dw = Ok m /\ mfm_data m = l /\ mfm_wf m /\ (forall k, weak_at m k = false) /\
    r_wrapv (m_clock m) = Some false /\ length (r_bits (m_clock m)) = length l.
Proof.
  intros Hl Hn Hz. unfold new_stream.
  set (bits := match data, ct with [], Some n => map Nat.even (seq 0 n) | _, _ => flat_map byte_bits data end).
  assert (Eb : match data with [] => match ct with Some n => Ok (map (fun i => i mod 2 =? 0) (seq 0 n)) | None => Err ParameterError end | _ => Ok (flat_map byte_bits data) end = Ok bits).
  { unfold bits. destruct data as [|x data]; [|reflexivity]. destruct ct as [n|]; [rewrite blank_even; reflexivity|]. exfalso. apply Hn. rewrite <- Hl. reflexivity. }
  rewrite Eb. cbn [obind option_map]. assert (Ec : match ct with Some n => firstn n bits | None => bits end = l) by exact Hl. clearbody bits. clear Eb Hl.
  unfold mfm_new. rewrite Ec. rewrite repeat_length, Nat.ltb_irrefl. cbn [obind].
  set (sy := match get_mfm_sync_offset l with Some s => s | None => false end). clearbody sy.
  set (m := mkMfm _ _ _ _ _ _ _ _ _).
  assert (Ll : 0 < length l) by (destruct l; [contradiction|cbn; lia]).
  assert (W : mfm_wf m).
  { unfold mfm_wf, m, plain. cbn [m_bits m_clock m_weak ring_from ring_set_wrap_value r_bits r_wrap]. rewrite !repeat_length. repeat split; auto.
    }
  assert (D : mfm_data m = l) by reflexivity.
  assert (K : forall k, weak_at m k = false).
  { intros k. unfold weak_at, m. cbn [m_weak_enabled m_weak ring_from r_bits]. unfold circ. rewrite nth_repeat. apply andb_false_r. }
  assert (V : r_wrapv (m_clock m) = Some false) by reflexivity.
  assert (LC : length (r_bits (m_clock m)) = length l) by apply repeat_length.
  destruct dw; [|exists m; auto 10].
  destruct (create_weak_bit_mask_spec m 6 (proj1 W)) as (w & Ew & Lw & Hw). rewrite Ew. cbn [obind]. unfold mfm_set_weak_mask_checked.
  rewrite Lw, Nat.eqb_refl. exists (mfm_set_weak_mask m w). split; [reflexivity|]. split; [exact D|].
  assert (LM : mfm_len m = length l) by reflexivity. clearbody m.
  split; [|split; [|split; [exact V|exact LC]]].
  - destruct W as (W1 & W2 & W3 & _). split; [exact W1|]. split; [exact W2|]. split; [exact W3|]. right.
    unfold mfm_set_weak_mask, with_weak. cbn [m_weak]. unfold plain, ring_from. cbn [r_bits r_wrap r_wrapv]. repeat split; auto; lia.
  - intros k. unfold weak_at, mfm_set_weak_mask, with_weak. cbn [m_weak_enabled m_weak ring_from r_bits].
    assert (X : circ w k = false); [|rewrite X; apply andb_false_r]. unfold circ. rewrite Lw, LM.
    pose proof (Nat.mod_upper_bound k (length l) ltac:(lia)) as Hk. set (j := k mod length l) in *. clearbody j.
    destruct (nth j w false) eqn:E; [|reflexivity]. exfalso. apply Hw in E; [|lia]. destruct E as [E1 E2]. rewrite D in E2.
    apply (Hz (j - 6)); [lia|]. intros i Hi. specialize (E2 (6 - i) ltac:(lia)). replace (j - 6 + i) with (j - (6 - i)) by lia. exact E2.
Qed.

(* the clock map is System 34's *)
Lemma clock_fold_same L : forall st, ofold am_clock_step L st = ofold clock_body (map (pair Idam) L) st.
Proof.
  induction L as [|x L IH]; intros [cm la]; [reflexivity|]. cbn [map ofold]. unfold am_clock_step at 1, clock_body at 1.
  destruct (if 0 <? la then _ else _) as [st| |]; cbn [obind]; [apply IH|reflexivity|reflexivity].
Qed.
Lemma clock_same L cm : am_create_clock_map L cm = create_clock_map (map (pair Idam) L) cm.
Proof. unfold am_create_clock_map. rewrite clock_fold_same. reflexivity. Qed.

Section Load.
Context (W : nat) (lead : list bool) (ss : list asector) (tail : list bool).
Hypothesis HW : wide W ss.
Hypothesis HW64 : 64 < W.
Hypothesis HR : Forall recorded ss.
Local Notation l := (amiga_track lead ss tail).
Local Notation marks := (map (mark_at W lead) (seq 0 (length ss))).
Lemma in_marks o : In o marks -> exists i, i < length ss /\ o = mark_at W lead i.
Proof. rewrite in_map_iff. intros (i & <- & Hi). apply in_seq in Hi. exists i. split; [lia|reflexivity]. Qed.
Lemma marks_spaced : spaced_from 0 (map (pair Idam) marks).
Proof.
  assert (G : forall k i n, n <= mark_at W lead i -> spaced_from n (map (pair Idam) (map (mark_at W lead) (seq i k)))).
  { induction k as [|k IH]; intros i n Hn; [exact I|]. cbn [seq map spaced_from]. split; [exact Hn|]. apply IH.
    unfold mark_at. rewrite Nat.mul_succ_r. lia. }
  apply G. lia.
Qed.
Lemma mark_in i : i < length ss -> 0 < mark_at W lead i /\ mark_at W lead i + 2 * (W - 16) <= length l.
Proof.
  intros Hi. rewrite (track_length W) by exact HW. unfold mark_at.
  pose proof (Nat.mul_le_mono_l (S i) (length ss) W ltac:(lia)) as X. rewrite Nat.mul_succ_r in X. lia.
Qed.
Lemma mark_next i j : mark_at W lead i < mark_at W lead j -> mark_at W lead i + 2 * W <= mark_at W lead j.
Proof.
  unfold mark_at. intros H. destruct (Nat.le_gt_cases j i) as [X|X].
  - pose proof (Nat.mul_le_mono_l j i W X). lia.
  - pose proof (Nat.mul_le_mono_l (S i) j W X) as Y. rewrite Nat.mul_succ_r in Y. lia.
Qed.
Lemma sector_holds m cm i s : mfm_data m = l -> mfm_wf m -> (forall k, weak_at m k = false) -> r_wrapv (m_clock m) = Some false ->
  length (r_bits (m_clock m)) = length l -> am_create_clock_map marks (r_bits (m_clock m)) = Ok cm -> nth_error ss i = Some s ->
  holds_at (set_clock_bits m cm) (mark_at W lead i + 32) (sector_bits s).
Proof.
  intros Hm Hw Hk Hv Hl Hc Hs. assert (Hi : i < length ss) by (apply nth_error_Some; rewrite Hs; discriminate).
  rewrite clock_same in Hc. pose proof (clock_map_length _ _ _ Hc) as Lc.
  assert (LS : length (sector_bits s) + 32 = W).
  { unfold wide in HW. rewrite Forall_forall in HW. pose proof (HW s (nth_error_In _ _ Hs)) as X. rewrite sec_ann_length in X. lia. }
  destruct (mark_in i Hi) as [M1 M2].
  split; [|split; [|split]].
  - destruct Hw as (A & B & C & D). split; [exact A|]. unfold set_clock_bits, with_clock. cbn [m_clock r_bits r_wrap m_weak]. rewrite Lc. split; [exact B|]. split; [exact C|exact D].
  - change (mfm_data (set_clock_bits m cm)) with (mfm_data m). rewrite Hm. apply list_eq_nth_error. intros k. unfold data_window. rewrite nth_error_map_seq.
    destruct (Nat.ltb_spec k (length (sector_bits s))) as [B|B]; [|symmetry; apply nth_error_None; lia]. cbn [Nat.add].
    unfold circ. rewrite Nat.mod_small by lia.
    pose proof (dbit_sec W lead ss tail i s (32 + k) HW Hs) as X. rewrite sec_ann_length in X. specialize (X ltac:(lia)). unfold dbit in X.
    unfold mark_at. replace (2 * (length lead + W * i) + 32 + 32 + 1 + 2 * k) with (2 * (length lead + W * i + (32 + k)) + 1) by lia. rewrite X.
    unfold sec_ann. rewrite app_assoc. assert (L32 : length (zeros ++ a1 ++ a1) = 32) by reflexivity. rewrite app_nth2 by lia. rewrite L32.
    replace (32 + k - 32) with k by lia. rewrite <- (map_nth fst). rewrite map_fst_nf. rewrite (nth_error_nth' _ false) by lia. reflexivity.
  - intros a Ha. unfold clk, set_clock_bits, with_clock. cbn [m_clock r_bits r_wrapv]. rewrite Hv.
    destruct (Nat.ltb_spec (mark_at W lead i + 32 + 2 * a + 1) (length cm)) as [B|B]; [|reflexivity].
    replace (mark_at W lead i + 32 + 2 * a + 1) with (mark_at W lead i + 2 * (16 + a) + 1) by lia.
    assert (EM : map snd (map (pair Idam) marks) = marks).
    { rewrite map_map. cbn [snd]. apply map_id. }
    apply (clock_map_gen (map (pair Idam) marks) (r_bits (m_clock m)) cm marks_spaced) with (e := mark_at W lead i + 2 * (W - 16)).
    + intros x Hx. apply (in_map snd) in Hx. rewrite EM in Hx. destruct (in_marks _ Hx) as (j & Hj & ->). destruct (mark_in j Hj). lia.
    + exact Hc.
    + rewrite EM. apply in_map, in_seq. lia.
    + lia.
    + rewrite EM. intros o Ho Hlt. destruct (in_marks o Ho) as (j & Hj & ->). apply mark_next in Hlt. lia.
    + lia.
  - exact Hk.
Qed.
Lemma clock_made m : length (r_bits (m_clock m)) = length l -> ss <> [] -> exists cm, am_create_clock_map marks (r_bits (m_clock m)) = Ok cm.
Proof.
  intros Hl Hn. rewrite clock_same. apply clock_total; [destruct ss; [contradiction|discriminate]|apply marks_spaced|].
  intros x Hx. apply (in_map snd) in Hx. rewrite map_map in Hx. cbn [snd] in Hx. rewrite map_id in Hx. destruct (in_marks _ Hx) as (j & Hj & ->).
  destruct (mark_in j Hj). lia.
Qed.
Definition items_from (i : nat) (l : list asector) : list AmInst :=
  concat (map (fun p => sector_elems (mark_at W lead (fst p)) (snd p)) (combine (seq i (length l)) l)).
Lemma elements_scan rnd m : (forall i s, nth_error ss i = Some s -> holds_at m (mark_at W lead i + 32) (sector_bits s)) ->
  am_scan_for_elements rnd m marks = Ok (items_from 0 ss).
Proof.
  intros H. unfold am_scan_for_elements.
  assert (G : forall l2 l1 acc, ss = l1 ++ l2 ->
    ofold (fun acc p => let! l := am_elements rnd m p in Ok (acc ++ l)) (map (mark_at W lead) (seq (length l1) (length l2))) acc =
    Ok (acc ++ items_from (length l1) l2)).
  { induction l2 as [|s l2 IH]; intros l1 acc E.
    - cbn. rewrite app_nil_r. reflexivity.
    - cbn [length seq map ofold]. assert (Hs : nth_error ss (length l1) = Some s) by (rewrite E, nth_error_app2, Nat.sub_diag by lia; reflexivity).
      rewrite (elements_at rnd m _ s).
      2:{ rewrite Forall_forall in HR. apply HR. eapply nth_error_In; exact Hs. }
      2:{ apply H, Hs. }
      cbn [obind]. specialize (IH (l1 ++ [s]) (acc ++ sector_elems (mark_at W lead (length l1)) s)). rewrite app_length in IH. cbn [length] in IH. rewrite Nat.add_1_r in IH.
      rewrite IH by (rewrite E, <- app_assoc; reflexivity). unfold items_from. cbn [length seq combine map concat fst snd]. rewrite app_assoc. reflexivity. }
  specialize (G ss [] [] eq_refl). exact G.
Qed.
Lemma am_load rnd ch data ct dw pref : ss <> [] -> input_cells data ct = l ->
  exists m, any_new rnd ch data None ct dw pref = Ok (TkAmiga (mkAt ch m (items_from 0 ss) (am_sector_ids (items_from 0 ss)))) /\ mfm_data m = l /\
    (forall i s, nth_error ss i = Some s -> holds_at m (mark_at W lead i + 32) (sector_bits s)).
Proof.
  intros Hn Hin. assert (Hl : l <> []).
  { destruct ss as [|s0 t0] eqn:Es; [contradiction|]. rewrite <- Es in *. destruct (mark_in 0) as [_ X]; [rewrite Es; cbn; lia|]. intros Y. rewrite Y in X. cbn [length] in X. lia. }
  destruct (stream_made data ct dw l Hin Hl) as (m & Em & Dm & Wm & Km & Vm & Lm).
  { intros i A B. exact (no_zero_run W lead ss tail HW HW64 i A B). }
  destruct (clock_made m Lm Hn) as [cm Ec].
  pose proof (fun i s => sector_holds m cm i s Dm Wm Km Vm Lm Ec) as Hh.
  set (m1 := set_clock_bits m cm) in *.
  set (m2 := match am_data_ranges (items_from 0 ss) with [] => m1 | rs => set_data_ranges m1 rs end).
  assert (EA : try_schema rnd ch m SchAmiga = Ok (Some (TkAmiga (mkAt ch m2 (items_from 0 ss) (am_sector_ids (items_from 0 ss)))))).
  { unfold try_schema. rewrite (am_scan_marks W lead ss tail HW HW64 m (proj1 Wm) Dm). cbn [obind]. rewrite Ec.
    assert (Ne : exists x r, marks = x :: r) by (destruct ss; [contradiction|]; cbn [length seq map]; eauto). destruct Ne as (x & r & Ne).
    pose proof (elements_scan rnd m1 Hh) as Es. rewrite Ne in *. cbn [obind]. fold m1. rewrite Es. cbn [obind]. reflexivity. }
  assert (ES : try_schema rnd ch m SchSystem34 = Ok None).
  { unfold try_schema. rewrite (s34_scan_none W lead ss tail HW HW64 m (proj1 Wm) Dm). reflexivity. }
  exists m2. split; [|split].
  - unfold any_new. rewrite Em. cbn [obind]. unfold schema_order. destruct pref as [[|]|]; cbn [try_schemas]; rewrite ?ES; cbn [obind]; rewrite EA; reflexivity.
  - unfold m2. destruct (am_data_ranges _); exact Dm.
  - intros i s Hs. specialize (Hh i s Hs). unfold m2. destruct (am_data_ranges _); exact Hh.
Qed.
End Load.
