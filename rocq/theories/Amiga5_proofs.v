(* Amiga5_proofs.v - with both schemas compiled in: loading any cells. *)
From Verif Require Import Base Base_lemmas Chs_model BitRing_model BitRing_proofs Mfm_model Mfm_spec Mfm_proofs Marker_proofs Codec_lemmas
  Crc_model Types_model System34_model BitStream_model OddEven_model Amiga_model Amiga_spec Amiga_proofs Amiga2_proofs Bs_general_proofs Bs_loaded_proofs
  Total_spec Total_proofs Amiga3_proofs.
From Coq Require Import Lia.

Lemma stream_total data weak ct dw : data <> [] \/ ct <> None -> match weak with Some w => length w = length data /\ data <> [] | None => True end ->
  exists m, new_stream data weak ct dw = Ok m /\ mfm_data m = input_cells data ct /\ (ready m \/ r_bits (m_bits m) = []).
Proof.
  intros Hd Hw. unfold new_stream. replace (match weak with Some w => negb (length data =? length w) | None => false end) with false by (destruct weak as [w|]; [|reflexivity]; destruct Hw as [-> _]; rewrite Nat.eqb_refl; reflexivity).
  set (bits := match data, ct with [], Some n => map Nat.even (seq 0 n) | _, _ => flat_map byte_bits data end).
  assert (Eb : match data with [] => match ct with Some n => Ok (map (fun i => i mod 2 =? 0) (seq 0 n)) | None => Err ParameterError end | _ => Ok (flat_map byte_bits data) end = Ok bits).
  { unfold bits. destruct data as [|x data]; [|reflexivity]. destruct ct as [n|]; [rewrite blank_even; reflexivity|]. destruct Hd; congruence. }
  rewrite Eb. cbn [obind]. set (cut := match ct with Some n => firstn n bits | None => bits end). assert (Ec : input_cells data ct = cut) by reflexivity. rewrite Ec. clearbody bits.
  assert (Lcut : length cut <= length bits) by (unfold cut; destruct ct; [rewrite firstn_length; lia|lia]).
  unfold mfm_new. fold cut. set (sync := match get_mfm_sync_offset cut with Some s => s | None => false end). set (wk := match option_map (flat_map byte_bits) weak with Some w => w | None => repeat false (length cut) end).
  assert (Lw : length cut <= length wk).
  { unfold wk. destruct weak as [w|]; cbn [option_map]; [|rewrite repeat_length; lia]. destruct Hw as [Hl Hn]. rewrite (flat_map_const_length byte_bits 8) by (intros; apply byte_bits_length). assert (Ebits : bits = flat_map byte_bits data) by (destruct data as [|d0 data]; [congruence|exact (f_equal (fun o => match o with Ok y => y | _ => bits end) (eq_sym Eb))]). rewrite Ebits, (flat_map_const_length byte_bits 8) in Lcut by (intros; apply byte_bits_length). rewrite Hl. exact Lcut. }
  destruct (Nat.ltb_spec (length wk) (length cut)); [lia|]. cbn [obind].
  set (m := mkMfm (ring_from cut) (ring_set_wrap_value (ring_from (repeat sync (length cut))) (Some false)) (ring_from (create_error_map cut)) true (ring_from wk) (if sync then 1 else 0) (if sync then 1 else 0) [] []).
  match goal with |- exists _, ?e = _ /\ _ => assert (Em : exists w', length cut <= length w' /\ e = Ok (mfm_set_weak_mask m w')) end.
  { destruct weak as [w|]; [exists wk; split; [exact Lw|reflexivity]|]. destruct dw; [|exists wk; split; [exact Lw|reflexivity]].
    destruct (detect_total m 6 eq_refl) as (w & E & L). rewrite E. cbn [obind]. unfold mfm_set_weak_mask_checked. rewrite L, Nat.eqb_refl. exists w. split; [|reflexivity]. rewrite L. unfold mfm_len, ring_len. cbn [m m_bits ring_from r_bits]. lia. }
  destruct Em as (w' & Lw' & Em). rewrite Em. exists (mfm_set_weak_mask m w'). split; [reflexivity|]. split; [reflexivity|]. clear Em. assert (C : cut = [] \/ cut <> []) by (clear; destruct cut; [left; reflexivity|right; discriminate]). destruct C as [C|C]; [right; exact C|]. left. assert (C1 : 1 <= length cut) by (revert C; clear; destruct cut; [contradiction|cbn; lia]). split.
  - assert (W : w' <> []) by (intros ->; cbn in Lw'; lia). split; [|exact W]. split; [apply plain_from; exact C|]. cbn [mfm_set_weak_mask with_weak m m_clock ring_set_wrap_value ring_from r_bits r_wrap m_weak]. rewrite repeat_length. split; [exact C1|]. split; [reflexivity|]. right. apply plain_from. exact W.
  - cbn [mfm_set_weak_mask with_weak m m_clock ring_set_wrap_value ring_from r_bits]. rewrite repeat_length. reflexivity.
Qed.
Lemma bt_new_stream rnd ch data weak ct dw : bt_new rnd ch data weak ct dw = obind (new_stream data weak ct dw) (bt_finish rnd ch).
Proof.
  unfold bt_new, new_stream. destruct (match weak with Some w => negb (length data =? length w) | None => false end); [reflexivity|].
  match goal with |- obind ?e _ = _ => destruct e as [bits|err|] end; cbn [obind]; [|reflexivity|reflexivity].
  destruct (mfm_new bits ct (option_map (flat_map byte_bits) weak)) as [m|e|]; cbn [obind]; [|reflexivity|reflexivity]. reflexivity.
Qed.

(* the Amiga scanner always comes to an end *)
Lemma am_loop_total m : plain (m_bits m) -> forall fuel c acc, mfm_len m < fuel + c -> 0 < fuel ->
  exists L, am_scan_loop fuel m c acc = Ok (acc ++ L) /\ spaced_from c (map (pair Idam) L) /\ Forall (fun o => 0 < o /\ o < mfm_len m) L.
Proof.
  intros P. induction fuel as [|f IH]; intros c acc Hf H0; [lia|]. cbn [am_scan_loop].
  destruct (am_next_spec m c P) as [(p & (F1 & F2 & F3 & F4) & E)|[F E]]; rewrite E; cbn [obind].
  - assert (Hp : p + 64 <= mfm_len m). { destruct F3 as [F3 _]. unfold mfm_data in F3. exact F3. }
    destruct (Nat.eq_dec f 0) as [->|Hf0]; [lia|].
    destruct (IH (p + 32 + 4 * MFM_BYTE_LEN) (acc ++ [p + 32])) as (L & EL & SL & BL); [unfold MFM_BYTE_LEN; lia|lia|].
    exists ((p + 32) :: L). split; [rewrite EL, <- app_assoc; reflexivity|]. split; [|constructor; [lia|exact BL]]. cbn [map spaced_from]. split; [lia|exact SL].
  - exists []. rewrite app_nil_r. split; [reflexivity|]. split; [exact I|constructor].
Qed.
Lemma am_empty m : r_bits (m_bits m) = [] -> am_scan_markers m = Ok [].
Proof. intros H. unfold am_scan_markers. cbn [am_scan_loop]. unfold am_find_next_marker, find_marker, ring_is_empty. rewrite H. reflexivity. Qed.
Lemma be32_total l : 4 <= length l -> exists v, be32_of l = Ok v.
Proof. intros H. destruct l as [|a [|b [|c [|d l]]]]; cbn in H; try lia. eexists. reflexivity. Qed.
Lemma am_sum_total rnd m a b : sound m -> a <= b -> exists v, am_checksum_u32 rnd m a b = Ok v.
Proof.
  intros H Hab. unfold am_checksum_u32. destruct (Nat.ltb_spec b a); [lia|]. destruct (H) as [(W1 & W2 & W3 & W4) _].
  unfold ring_len at 1. destruct (Nat.eqb_spec (length (r_bits (m_clock m))) 0); [lia|]. rewrite clk_get by apply H. cbn [obind].
  destruct (decoded_total rnd m H ((b - a) / 16) a) as (l & E & _). rewrite E. eexists. reflexivity.
Qed.
Lemma am_dec_total rnd m i : sound m -> exists v, am_decode_checksum rnd m i = Ok v.
Proof. intros H. unfold am_decode_checksum. destruct (decoded_total rnd m H 4 i) as (l & E & L). rewrite E. cbn [obind]. apply be32_total. lia. Qed.
Lemma am_elements_total rnd m p : sound m -> exists c ae de, am_elements rnd m p =
  Ok [mkAi (AmHeader (mkChsn c 2) ae false) p (p + mfm_offset 10) (Some (mkChsn c 2)) false;
      mkAi (AmData (mkChsn c 2) ae de) (p + mfm_offset 26) (p + mfm_offset (26 + 4 + 512)) (Some (mkChsn c 2)) false].
Proof.
  intros H. unfold am_elements, am_decode_interleaved_u32. remember 512 as K eqn:HK. clear HK.
  destruct (raw_nth m 8 (p + mfm_offset 2) 0 (proj1 (proj1 H)) ltac:(lia)) as (raw & Er & Lr). rewrite Er. cbn [obind].
  destruct (decoded_total rnd m H 4 (p + mfm_offset 2)) as (l & El & Ll). rewrite El. cbn [obind].
  destruct (be32_total l) as [v0 E0]; [lia|]. rewrite E0. cbn [obind]. destruct (be32_total raw) as [v1 E1]; [lia|]. rewrite E1. cbn [obind].
  destruct (be32_total (skipn 4 raw)) as [v2 E2]; [rewrite skipn_length; lia|]. rewrite E2. cbn [obind].
  unfold to_be32, oindex. cbn [nth_error obind].
  match goal with |- context [am_checksum_u32 rnd m ?a ?b] => destruct (am_sum_total rnd m a b H) as [v3 E3]; [unfold mfm_offset; lia|]; rewrite E3; cbn [obind] end.
  match goal with |- context [am_decode_checksum rnd m ?a] => destruct (am_dec_total rnd m a H) as [v4 E4]; rewrite E4; cbn [obind] end.
  match goal with |- context [am_decode_checksum rnd m ?a] => destruct (am_dec_total rnd m a H) as [v5 E5]; rewrite E5; cbn [obind] end.
  match goal with |- context [am_checksum_u32 rnd m ?a ?b] => destruct (am_sum_total rnd m a b H) as [v6 E6]; [unfold mfm_offset; lia|]; rewrite E6; cbn [obind] end.
  eexists _, _, _. reflexivity.
Qed.
(* the items are pairs of a header and its data *)
Inductive paired : list AmInst -> Prop :=
| paired_nil : paired []
| paired_cons p c ae de l : paired l ->
    paired (mkAi (AmHeader (mkChsn c 2) ae false) p (p + mfm_offset 10) (Some (mkChsn c 2)) false ::
            mkAi (AmData (mkChsn c 2) ae de) (p + mfm_offset 26) (p + mfm_offset (26 + 4 + 512)) (Some (mkChsn c 2)) false :: l).
Lemma paired_app a b : paired a -> paired b -> paired (a ++ b).
Proof. induction 1; intros; [assumption|]. cbn [app]. constructor. auto. Qed.
Lemma am_scan_total rnd m L : sound m -> exists items, am_scan_for_elements rnd m L = Ok items /\ paired items /\ length items = 2 * length L.
Proof.
  intros H. unfold am_scan_for_elements.
  assert (G : forall L acc, paired acc -> exists items, ofold (fun acc p => let! l := am_elements rnd m p in Ok (acc ++ l)) L acc = Ok items /\ paired items /\ length items = length acc + 2 * length L).
  { clear L. induction L as [|p L IH]; intros acc Ha; cbn [ofold].
    - exists acc. split; [reflexivity|]. split; [exact Ha|cbn; lia].
    - destruct (am_elements_total rnd m p H) as (c & ae & de & E). rewrite E. cbn [obind].
      match goal with |- context [acc ++ ?x] => destruct (IH (acc ++ x)) as (items & E2 & P2 & L2) end.
      + apply paired_app; [exact Ha|]. constructor. constructor.
      + exists items. split; [exact E2|]. split; [exact P2|]. rewrite L2, app_length. cbn [length]. lia. }
  destruct (G L []) as (items & A & B & C); [constructor|]. exists items. auto.
Qed.
Lemma am_try_total rnd ch m : ready m \/ r_bits (m_bits m) = [] ->
  try_schema rnd ch m SchAmiga = Ok None \/
  exists t, try_schema rnd ch m SchAmiga = Ok (Some (TkAmiga t)) /\ mfm_data (at_data t) = mfm_data m /\ sound (at_data t) /\ paired (at_items t) /\ at_items t <> [] /\ at_ids t = am_sector_ids (at_items t).
Proof.
  intros [[H Lc]|H]; unfold try_schema.
  - pose proof (proj1 (proj1 H)) as P. destruct (am_loop_total m P (S (mfm_len m)) 0 [] ltac:(lia) ltac:(lia)) as (L & E & S1 & B). unfold am_scan_markers. rewrite E. cbn [obind app].
    destruct L as [|x L]; [left; reflexivity|]. right. rewrite clock_same.
    destruct (clock_total (map (pair Idam) (x :: L)) (r_bits (m_clock m))) as [cm Ec]; [discriminate|exact S1| |].
    { intros y Hy. apply in_map_iff in Hy as (o & <- & Ho). rewrite Forall_forall in B. specialize (B o Ho). cbn [snd]. rewrite Lc. lia. }
    rewrite Ec. cbn [obind]. pose proof (clock_map_length _ _ _ Ec) as Lm.
    assert (Sd : sound (set_clock_bits m cm)). { destruct H as [(A & Bb & C & D) Ww]. split; [|exact Ww]. split; [exact A|]. cbn [set_clock_bits with_clock m_clock r_bits r_wrap m_weak]. rewrite Lm. split; [exact Bb|]. split; [exact C|exact D]. }
    destruct (am_scan_total rnd (set_clock_bits m cm) (x :: L) Sd) as (items & Es & Ps & Ls). rewrite Es. cbn [obind]. eexists. split; [reflexivity|]. cbn [at_data at_items at_ids].
    split; [destruct (am_data_ranges items); reflexivity|]. split; [destruct (am_data_ranges items); exact Sd|]. split; [exact Ps|]. split; [|reflexivity].
    intros X. rewrite X in Ls. cbn [length] in Ls. lia.
  - left. rewrite (am_empty m H). reflexivity.
Qed.
Lemma s34_try rnd ch m : try_schema rnd ch m SchSystem34 =
  match bt_finish rnd ch m with Ok t => if bt_schema t then Ok (Some (TkSystem34 t)) else Ok None | Err e => Err e | Panic => Panic end.
Proof.
  unfold try_schema, bt_finish. destruct (scan_markers m) as [L|e|]; cbn [obind]; [|reflexivity|reflexivity]. destruct L as [|x L]; [reflexivity|].
  destruct (create_clock_map (x :: L) (r_bits (m_clock m))) as [cm|e|]; cbn [obind]; [|reflexivity|reflexivity].
  destruct (scan_metadata rnd (set_clock_bits m cm) (x :: L)) as [[items m']|e|]; cbn [obind]; reflexivity.
Qed.
Lemma finish_false rnd ch m t : bt_finish rnd ch m = Ok t -> bt_schema t = false -> t = mkTrack ch m meta_default false.
Proof.
  unfold bt_finish. destruct (scan_markers m) as [L|e|]; cbn [obind]; [|discriminate|discriminate]. destruct L as [|x L]; [intros E; injection E as <-; reflexivity|].
  destruct (create_clock_map (x :: L) (r_bits (m_clock m))) as [cm|e|]; cbn [obind]; [|discriminate|discriminate].
  destruct (scan_metadata rnd (set_clock_bits m cm) (x :: L)) as [[items m']|e|]; cbn [obind]; [|discriminate|discriminate].
  intros E Hf. injection E as <-. discriminate Hf.
Qed.
