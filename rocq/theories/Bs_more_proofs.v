(* Bs_more_proofs.v - reloading, whole-track reads, next-id and analysis of bitstream tracks. *)
From Verif Require Import Base Base_lemmas Chs_model Chs_proofs BitRing_model BitRing_proofs Mfm_model Mfm_spec Mfm_proofs Marker_proofs Codec_lemmas
  Crc_model Crc16_proofs Types_model System34_model System34_spec Stream_proofs S34_layout_proofs S34_format_proofs S34_scan_proofs S34_clock_proofs
  S34_meta_proofs BitStream_model TreeMap_proofs MetaSector_spec MetaSector_proofs S34_track_proofs S34_ops_proofs S34_write_proofs
  BitStream_spec Bs_general_proofs Bs_history_proofs.
From Coq Require Import Lia.

(* ---- saving the cells and loading them again ---- *)
Lemma to_bytes_cells : forall n f l, length l = 8 * n -> n <= f -> flat_map byte_bits (to_bytes_loop f l) = l.
Proof.
  induction n as [|n IH]; intros f l Hl Hf.
  - destruct l; [|discriminate]. destruct f; reflexivity.
  - destruct f as [|f]; [lia|]. destruct l as [|b l0] eqn:E; [cbn [length] in Hl; lia|]. rewrite <- E in *. 
    assert (Eu : to_bytes_loop (S f) l = bits_val (firstn 8 (l ++ repeat false 8)) :: to_bytes_loop f (skipn 8 l)) by (rewrite E; reflexivity).
    rewrite Eu. cbn [flat_map]. rewrite IH by (rewrite ?skipn_length; lia).
    rewrite firstn_app. replace (8 - length l) with 0 by lia. rewrite firstn_O, app_nil_r.
    rewrite byte_bits_bits_val by (rewrite firstn_length; lia). apply firstn_skipn.
Qed.
Lemma to_bytes_cells' l : length l mod 8 = 0 -> flat_map byte_bits (to_bytes l) = l.
Proof.
  intros H. apply Nat.mod_divides in H as [n Hn]; [|lia]. unfold to_bytes. eapply to_bytes_cells; [exact Hn|lia].
Qed.
Lemma reload_good rnd ch std gap3 ss t B : good std gap3 ss t B -> ss <> [] ->
  exists t', bt_new rnd ch (to_bytes (mfm_data (bt_data t))) None (Some (mfm_len (bt_data t))) false = Ok t' /\
    good std gap3 ss t' B /\ bt_schema t' = true /\ bt_ch t' = ch /\
    mfm_data (bt_data t') = mfm_data (bt_data t) /\ bt_meta t' = bt_meta t.
Proof.
  intros [G1 G2 G3 G4 G5] Hne. pose proof (holds_len _ _ _ _ _ G1) as HL. pose proof (h_fits _ _ _ _ _ G1) as [Hf _].
  set (cells := mfm_data (bt_data t)) in *.
  assert (Hb : flat_map byte_bits (to_bytes cells) = cells).
  { apply to_bytes_cells'. rewrite HL. replace (16 * length B) with (2 * length B * 8) by lia. apply Nat.mod_mul. lia. }
  assert (Hnn : to_bytes cells <> []).
  { intros E. rewrite E in Hb. cbn in Hb. rewrite <- Hb in HL. cbn [length] in HL. lia. }
  change (mfm_len (bt_data t)) with (length cells).
  assert (Em : exists m, mfm_new cells (Some (length cells)) None = Ok m /\ mfm_data m = cells).
  { unfold mfm_new. rewrite firstn_all, repeat_length, Nat.ltb_irrefl. eexists; split; reflexivity. }
  destruct Em as (m & Em & Ed).
  destruct (mfm_new_fmt _ _ _ Em) as (P1 & P2 & P3 & P4).
  { unfold mfm_len, ring_len. fold (mfm_data m). rewrite Ed, HL. lia. }
  assert (G1' : holds std gap3 ss (mfm_data m) B) by (rewrite Ed; exact G1).
  destruct (clock_and_meta rnd std gap3 ss m B G1' G3 P1 P2 (noweak_at m (or_intror P3)) P4) as (cm & c & E1 & E2 & E3 & E4 & E5).
  assert (Emk : scaled (track_marks std gap3 ss) <> []).
  { destruct ss; [congruence|]. destruct std; discriminate. }
  assert (En : bt_new rnd ch (to_bytes cells) None (Some (length cells)) false =
     Ok (mkTrack ch (match data_ranges (meta_new (track_items std gap3 ss)) with [] => with_cursor (set_clock_bits m cm) c
                     | rs => set_data_ranges (with_cursor (set_clock_bits m cm) c) rs end) (meta_new (track_items std gap3 ss)) true)).
  { unfold bt_new. cbn [option_map].
    assert (Ebits : match to_bytes cells with [] => Ok (map (fun i => i mod 2 =? 0) (seq 0 (length cells))) | _ :: _ => Ok (flat_map byte_bits (to_bytes cells)) end
                    = Ok cells) by (rewrite Hb; destruct (to_bytes cells); [congruence|reflexivity]).
    destruct (to_bytes cells) as [|x xs] eqn:Ex; [congruence|].
    cbn [obind] in *. rewrite Hb. rewrite Em. cbn [obind]. rewrite (scan_markers_spec std gap3 ss m B P1 G1'). cbn [obind].
    destruct (scaled (track_marks std gap3 ss)) as [|mk0 mks]; [congruence|]. rewrite E1. cbn [obind]. rewrite E3. reflexivity. }
  rewrite En. eexists. split; [reflexivity|]. cbn [bt_data bt_meta bt_schema bt_ch].
  split; [constructor; cbn [bt_data bt_meta]; auto|]; [| | |repeat split; auto].
  - rewrite bits_ranges_opt. exact G1'.
  - apply ready_ranges_opt, ready_cursor. exact E4.
  - apply clock_ranges_opt. destruct E5; constructor; auto.
  - rewrite bits_ranges_opt. exact Ed.
Qed.

(* ---- reading all sectors ---- *)
Lemma next_last index : forall l ei c0 k a b c,
  next_sector_loop index (l ++ [mkInst (ElMarker k) a b c true]) ei c0 = next_sector_loop index (l ++ [mkInst (ElMarker k) a b c false]) ei c0.
Proof.
  induction l as [|x l IH]; intros ei c0 k a b c; cbn [app next_sector_loop i_start i_elem].
  - destruct (a <? index), k; reflexivity.
  - rewrite !IH. destruct (i_start x <? index), (i_elem x) as [[]| |], c0; rewrite ?IH; reflexivity.
Qed.
Fixpoint first_slot (index : nat) (sl : list (nat * fsector)) (k : nat) : option (nat * (nat * fsector)) :=
  match sl with
  | [] => None
  | x :: t => if index <=? 16 * idam_at (fst x) then Some (k, x) else first_slot index t (S k)
  end.
Lemma next_slots index std gap3 : forall ss off ei,
  (forall x, In x (slots std gap3 off ss) -> 16 * dam_at std (fst x) < index \/ index <= 16 * idam_at (fst x)) ->
  forall k, next_sector_loop index (flat_map (sector_items std) (slots std gap3 off ss)) (ei + 4 * k) None =
  match first_slot index (slots std gap3 off ss) k with
  | Some (j, (o, s)) => Found (ei + 4 * j + 2) (fs_id s) false false false false false
  | None => NotFound false false false
  end.
Proof.
  induction ss as [|s ss IH]; intros off ei H k; cbn [slots flat_map first_slot]; [reflexivity|].
  cbn [sector_items app fst]. set (t := slots std gap3 (off + sector_len std gap3 s) ss) in *.
  destruct (Nat.leb_spec index (16 * idam_at off)) as [H1|H1].
  - cbn [next_sector_loop i_start i_elem i_chsn i_last].
    assert (Hd : index <= 16 * dam_at std off) by (unfold idam_at, dam_at in *; lia).
    destruct (Nat.ltb_spec (16 * idam_at off) index); [lia|]. destruct (Nat.ltb_spec (16 * dam_at std off) index); [lia|].
    f_equal. lia.
  - destruct (H (off, s)) as [H2|H2]; [left; reflexivity| |cbn [fst] in H2; lia]. cbn [fst] in H2.
    cbn [next_sector_loop i_start i_elem i_chsn i_last].
    destruct (Nat.ltb_spec (16 * idam_at off) index); [|lia]. destruct (Nat.ltb_spec (16 * dam_at std off) index); [|lia].
    replace (S (S (S (S (ei + 4 * k))))) with (ei + 4 * (S k)) by lia. apply IH. intros x Hx. apply H. right. exact Hx.
Qed.
Lemma next_track std gap3 ss index :
  (forall x, In x (track_slots std gap3 ss) -> 16 * dam_at std (fst x) < index \/ index <= 16 * idam_at (fst x)) ->
  next_sector_loop index (track_items std gap3 ss) 0 None =
  match first_slot index (track_slots std gap3 ss) 0 with
  | Some (j, (o, s)) => Found (data_index std j) (fs_id s) false false false false false
  | None => NotFound false false false
  end.
Proof.
  intros H. unfold track_items. fold (plain_items std gap3 ss).
  assert (E : next_sector_loop index (map_last set_last (plain_items std gap3 ss)) 0 None = next_sector_loop index (plain_items std gap3 ss) 0 None).
  { destruct (plain_items_last std gap3 ss) as [E|(l' & k & a & b & c & E)]; rewrite E; [reflexivity|].
    rewrite map_last_snoc. unfold set_last. cbn [i_elem i_start i_end i_chsn]. apply next_last. }
  rewrite E. unfold plain_items, data_index. unfold track_slots in *.
  assert (G := next_slots index std gap3 ss (length (preamble std)) (length (iam_items std)) H 0). rewrite Nat.mul_0_r, Nat.add_0_r in G. rewrite <- G.
  unfold iam_items. destruct (iam_at std) as [p|]; cbn [app length]; [|reflexivity].
  cbn [next_sector_loop i_start i_elem]. destruct (16 * p <? index); reflexivity.
Qed.

Fixpoint upto (eot : N) (ss : list fsector) : list fsector :=
  match ss with
  | [] => []
  | s :: t => if (chsn_s (fs_id s) =? eot)%N then [s] else s :: upto eot t
  end.
Lemma first_slot_skip index : forall sl k, (forall x, In x sl -> 16 * idam_at (fst x) < index) -> forall tl,
  first_slot index (sl ++ tl) k = first_slot index tl (length sl + k).
Proof.
  induction sl as [|x sl IH]; intros k H tl; [reflexivity|]. cbn [app first_slot length].
  destruct (Nat.leb_spec index (16 * idam_at (fst x))); [specialize (H x (or_introl eq_refl)); lia|].
  rewrite IH by (intros y Hy; apply H; right; auto). f_equal. lia.
Qed.
Lemma slots_app std gap3 : forall a b off, slots std gap3 off (a ++ b) =
  slots std gap3 off a ++ slots std gap3 (off + list_sum (map (sector_len std gap3) a)) b.
Proof.
  induction a as [|s a IH]; intros b off; cbn [app slots map list_sum]; [rewrite Nat.add_0_r; reflexivity|].
  cbn [list_sum fold_right]. rewrite IH. f_equal. f_equal. f_equal. unfold list_sum. lia.
Qed.
Lemma slots_end std gap3 : forall ss off x, In x (slots std gap3 off ss) ->
  off <= fst x /\ fst x + sector_len std gap3 (snd x) <= off + list_sum (map (sector_len std gap3) ss).
Proof.
  induction ss as [|s ss IH]; intros off x H; [destruct H|]. cbn [slots map list_sum fold_right] in *. destruct H as [<-|H].
  - cbn [fst snd]. lia.
  - apply IH in H. unfold list_sum in *. lia.
Qed.

Section ReadAll.
Variables (std : Standard) (gap3 : nat) (B : list N).
Definition accum (acc : ReadTrackResult) (s : fsector) : ReadTrackResult :=
  mkTrackRead false (rt_deleted acc || false) (rt_address_crc_error acc || false) (rt_data_crc_error acc || false)
    (N.min 65535 (rt_sectors_read acc + 1)) (rt_buf acc ++ fs_data s) 0 0.
Lemma read_all_loop_good rnd eot n : forall todo done_ t acc fuel r, good std gap3 (done_ ++ todo) t B ->
  Forall (fun s => n_size (fs_id s) = n) (done_ ++ todo) -> length todo < fuel ->
  r = match todo with [] => NotFound false false false
        | s :: _ => Found (data_index std (length done_)) (fs_id s) false false false false false end ->
  exists t', read_all_loop rnd fuel t n eot r acc = Ok (fold_left accum (upto eot todo) acc, t') /\
     good std gap3 (done_ ++ todo) t' B /\ bt_schema t' = bt_schema t /\ bt_ch t' = bt_ch t /\ mfm_data (bt_data t') = mfm_data (bt_data t).
Proof.
  induction todo as [|s todo IH]; intros dn t acc fuel r G Hn Hf ->.
  { destruct fuel; exists t; auto. }
  destruct fuel as [|fuel]; [cbn [length] in Hf; lia|]. cbn [read_all_loop].
  set (ss := dn ++ s :: todo) in *.
  assert (Hs : nth_error ss (length dn) = Some s) by (unfold ss; rewrite nth_error_app2, Nat.sub_diag by lia; reflexivity).
  destruct (slot_of std gap3 ss (length dn) s Hs) as [o Ho].
  destruct (slot_facts std gap3 ss t B G _ _ _ Ho) as ((Hlen & _) & Hfm & Hb & Hd).
  assert (Hns : n_size (fs_id s) = n) by (rewrite Forall_forall in Hn; apply Hn; eapply nth_error_In; eauto).
  rewrite (g_meta _ _ _ _ _ G). cbn [meta_new md_items]. unfold oindex at 1.
  rewrite (track_items_nth _ _ _ _ _ _ Ho). cbn [obind data_item i_start i_end].
  unfold read_exact_at. replace (16 * dam_at std o + 64) with (16 * (dam_at std o + 4)) by lia.
  rewrite (ready_seek _ _ _ _ (g_ready _ _ _ _ _ G)) by (clear - Hfm; unfold idam_at, dam_at in *; lia).
  rewrite (ready_mfm_read rnd _ _ _ _ _ (g_ready _ _ _ _ _ G)) by (rewrite <- ?Hns, <- ?Hlen; clear - Hfm Hb; unfold idam_at, dam_at in *; lia).
  cbn [obind].
  assert (Ed : slice B (dam_at std o + 4) n = fs_data s).
  { rewrite <- Hns, <- Hlen. transitivity (slice (slice B (dam_at std o) (length (fs_data s) + 6)) 4 (length (fs_data s))).
    - rewrite slice_slice by lia. f_equal. - rewrite Hd, data_field_split. unfold slice. rewrite <- app_assoc. cbn [app skipn]. 
      rewrite firstn_app, firstn_all, Nat.sub_diag. cbn [firstn]. apply app_nil_r. }
  rewrite Ed. cbn [upto]. fold (accum acc s).
  set (t1 := with_data t _).
  assert (G1 : good std gap3 ss t1 B).
  { destruct G as [A1 A2 A3 A4 A5]. constructor; auto. - apply ready_cursor. exact A2. - destruct A5; constructor; auto. }
  destruct (N.eqb_spec (chsn_s (fs_id s)) eot) as [He|He].
  { exists t1. cbn [fold_left]. auto. }
  assert (Ess : ss = (dn ++ [s]) ++ todo) by (unfold ss; rewrite <- app_assoc; reflexivity).
  assert (Hnext : bt_next_sector t1 (16 * (dam_at std o + 4) + 16 * n_size (fs_id s)) =
     match todo with [] => NotFound false false false | y :: _ => Found (data_index std (length (dn ++ [s]))) (fs_id y) false false false false false end).
  { unfold bt_next_sector. rewrite (g_meta _ _ _ _ _ G1). cbn [meta_new md_items].
    set (idx := 16 * (dam_at std o + 4) + 16 * n_size (fs_id s)).
    assert (Eo : o = length (preamble std) + list_sum (map (sector_len std gap3) dn)).
    { unfold track_slots, ss in Ho. rewrite slots_app in Ho. rewrite nth_error_app2 in Ho by (rewrite slots_length; lia).
      rewrite slots_length, Nat.sub_diag in Ho. cbn [slots nth_error] in Ho. injection Ho as <-. reflexivity. }
    assert (Hslots : track_slots std gap3 ss = slots std gap3 (length (preamble std)) (dn ++ [s]) ++ slots std gap3 (o + sector_len std gap3 s) todo).
    { unfold track_slots. rewrite Ess, slots_app. f_equal. rewrite map_app, list_sum_app. cbn [map list_sum fold_right]. rewrite Eo. f_equal. lia. }
    assert (Hlo : forall x, In x (slots std gap3 (length (preamble std)) (dn ++ [s])) -> 16 * dam_at std (fst x) < idx).
    { intros x Hx. rewrite slots_app in Hx. apply in_app_or in Hx as [Hx|Hx].
      - apply slots_end in Hx. unfold sector_len in Hx at 1. unfold idx, dam_at in *. rewrite <- Eo in Hx. lia.
      - rewrite <- Eo in Hx. cbn [slots In] in Hx. destruct Hx as [<-|[]]. cbn [fst]. unfold idx. lia. }
    assert (Hhi : forall x, In x (slots std gap3 (o + sector_len std gap3 s) todo) -> idx <= 16 * idam_at (fst x)).
    { intros x Hx. apply slots_end in Hx. unfold idx, dam_at, idam_at. unfold sector_len in Hx at 1. rewrite <- Hlen. lia. }
    rewrite next_track.
    - rewrite Hslots. rewrite first_slot_skip by (intros x Hx; apply Hlo in Hx; unfold idam_at, dam_at in *; lia).
      rewrite slots_length, Nat.add_0_r. destruct todo as [|y todo]; cbn [slots first_slot]; [reflexivity|].
      cbn [fst]. destruct (Nat.leb_spec idx (16 * idam_at (o + sector_len std gap3 s))) as [HH|HH]; [reflexivity|].
      specialize (Hhi (o + sector_len std gap3 s, y) (or_introl eq_refl)). cbn [fst] in Hhi. lia.
    - intros x Hx. rewrite Hslots in Hx. apply in_app_or in Hx as [Hx|Hx]; [left; apply Hlo; auto|right; apply Hhi; auto]. }
  rewrite Hnext. rewrite Ess in G1. destruct (IH (dn ++ [s]) t1 (accum acc s) fuel (match todo with [] => NotFound false false false | y :: _ => Found (data_index std (length (dn ++ [s]))) (fs_id y) false false false false false end) G1) as (t' & E' & G' & F1 & F2 & F3).
  - rewrite <- Ess. exact Hn. - cbn [length] in Hf. lia. - reflexivity.
  - exists t'. cbn [fold_left]. rewrite E'. split; [reflexivity|]. rewrite Ess. auto.
Qed.
End ReadAll.
Lemma accum_fold : forall ss acc, let r := fold_left accum ss acc in
  rt_buf r = rt_buf acc ++ concat (map fs_data ss) /\ rt_deleted r = rt_deleted acc /\ rt_address_crc_error r = rt_address_crc_error acc /\
  rt_data_crc_error r = rt_data_crc_error acc /\ (ss <> [] -> rt_not_found r = false) /\
  ((rt_sectors_read acc <= 65535)%N -> rt_sectors_read r = N.min 65535 (rt_sectors_read acc + N.of_nat (length ss))).
Proof.
  induction ss as [|s ss IH]; intros acc; cbn [fold_left map concat length].
  - rewrite app_nil_r. repeat split; auto; [congruence|]. intros H. lia.
  - destruct (IH (accum acc s)) as (A & B & C & D & E & F). clear IH. cbn zeta in *.
    set (r := fold_left accum ss (accum acc s)) in *.
    assert (A0 : rt_buf (accum acc s) = rt_buf acc ++ fs_data s) by reflexivity.
    assert (B0 : rt_deleted (accum acc s) = rt_deleted acc) by apply orb_false_r.
    assert (C0 : rt_address_crc_error (accum acc s) = rt_address_crc_error acc) by apply orb_false_r.
    assert (D0 : rt_data_crc_error (accum acc s) = rt_data_crc_error acc) by apply orb_false_r.
    assert (F0 : rt_sectors_read (accum acc s) = N.min 65535 (rt_sectors_read acc + 1)) by reflexivity.
    rewrite A, A0, <- app_assoc. split; [reflexivity|]. split; [congruence|]. split; [congruence|]. split; [congruence|]. split.
    + intros _. destruct ss; [reflexivity|apply E; discriminate].
    + intros H. rewrite F by (rewrite F0; clear; lia). rewrite F0. clear - H. lia.
Qed.

Lemma read_all_good rnd std gap3 ss t B n eot : good std gap3 ss t B -> Forall (fun s => chsn_n (fs_id s) = n) ss ->
  exists r t', bt_read_all rnd t n eot = Ok (r, t') /\ good std gap3 ss t' B /\ mfm_data (bt_data t') = mfm_data (bt_data t) /\
    rt_buf r = concat (map fs_data (upto eot ss)) /\ rt_len_bytes r = length (rt_buf r) /\
    (rt_not_found r = true <-> ss = []) /\ rt_deleted r = false /\ rt_address_crc_error r = false /\ rt_data_crc_error r = false /\
    rt_sectors_read r = N.min 65535 (N.of_nat (length (upto eot ss))).
Proof.
  intros G Hn. unfold bt_read_all.
  assert (H0 : bt_next_sector t 0 = match ss with [] => NotFound false false false | s :: _ => Found (data_index std 0) (fs_id s) false false false false false end).
  { unfold bt_next_sector. rewrite (g_meta _ _ _ _ _ G). cbn [meta_new md_items]. rewrite next_track by (intros; right; lia).
    unfold track_slots. destruct ss; cbn [slots first_slot]; reflexivity. }
  rewrite H0.
  assert (Hfuel : length ss < S (length (md_items (bt_meta t)))).
  { rewrite (g_meta _ _ _ _ _ G). cbn [meta_new md_items].
    assert (X : length (find_sector_ids (track_items std gap3 ss)) = length ss) by (rewrite items_ids, map_length; reflexivity).
    assert (Y : forall l, length (find_sector_ids l) <= length l).
    { clear. induction l as [|i l IH]; [reflexivity|]. unfold find_sector_ids in *. cbn [flat_map]. rewrite app_length. cbn [length]. destruct (i_elem i); cbn [length]; lia. }
    specialize (Y (track_items std gap3 ss)). lia. }
  destruct (read_all_loop_good std gap3 B rnd eot (N.to_nat (n_to_bytes n)) ss [] t (mkTrackRead true false false false 0 [] 0 0)
     (S (length (md_items (bt_meta t)))) (match ss with [] => NotFound false false false | s :: _ => Found (data_index std 0) (fs_id s) false false false false false end))
     as (t' & E & G' & _ & _ & Hd); auto.
  { cbn [app]. apply Forall_forall. intros s Hs. rewrite Forall_forall in Hn. unfold n_size. rewrite (Hn s Hs). reflexivity. }
  rewrite E. cbn [obind]. destruct (accum_fold (upto eot ss) (mkTrackRead true false false false 0 [] 0 0)) as (A1 & A2 & A3 & A4 & A5 & A6).
  cbn zeta in *. eexists. exists t'. split; [reflexivity|]. split; [exact G'|]. split; [exact Hd|].
  cbn [rt_buf rt_len_bytes rt_not_found rt_deleted rt_address_crc_error rt_data_crc_error rt_sectors_read].
  split; [exact A1|]. split; [reflexivity|].
  split; [|split; [exact A2|split; [exact A3|split; [exact A4|]]]].
  - destruct ss as [|s ss]; [cbn [upto fold_left rt_not_found]; tauto|].
    rewrite A5; [split; discriminate|]. cbn [upto]. destruct (chsn_s (fs_id s) =? eot)%N; discriminate.
  - rewrite A6 by (cbn [rt_sectors_read]; lia). cbn [rt_sectors_read]. reflexivity.
Qed.

(* ---- next id ---- *)
Lemma next_id_loop_spec s : forall ids, NoDup (map chsn_s ids) -> forall i id, nth_error ids i = Some id -> chsn_s id = s ->
  next_id_loop s ids false = match nth_error ids (S i) with Some y => inl (Some y) | None => inr true end.
Proof.
  induction ids as [|x ids IH]; intros ND i id Hi Hs; [destruct i; discriminate|]. inversion ND as [|? ? Hx ND']; subst. cbn [next_id_loop].
  destruct i as [|i].
  - injection Hi as ->. rewrite N.eqb_refl. cbn [nth_error]. destruct ids; reflexivity.
  - cbn [nth_error] in *. destruct (N.eqb_spec (chsn_s x) (chsn_s id)) as [E|E].
    + exfalso. apply Hx. rewrite E. apply in_map. eapply nth_error_In; eauto.
    + eapply IH; eauto.
Qed.
Lemma bt_next_id_spec t chs i id : NoDup (map chsn_s (md_ids (bt_meta t))) -> nth_error (md_ids (bt_meta t)) i = Some id -> chsn_s id = chs_s chs ->
  bt_next_id t chs = nth_error (md_ids (bt_meta t)) (S i mod length (md_ids (bt_meta t))).
Proof.
  intros ND Hi Hs. unfold bt_next_id. set (ids := md_ids (bt_meta t)) in *.
  assert (Hlt : i < length ids) by (apply nth_error_Some; congruence).
  destruct ids as [|x ids'] eqn:E; [destruct i; discriminate|]. rewrite <- E in *.
  assert (Q : match ids with [] => None | first :: _ => match next_id_loop (chs_s chs) ids false with inl r => r | inr true => Some first | inr false => None end end
     = nth_error ids (S i mod length ids)).
  { rewrite (next_id_loop_spec (chs_s chs) ids ND i id Hi Hs). rewrite E. rewrite <- E.
    destruct (Nat.eq_dec (S i) (length ids)) as [El|El].
    - rewrite El, Nat.mod_same by lia. destruct (nth_error ids (length ids)) eqn:En; [exfalso; assert (length ids < length ids) by (apply nth_error_Some; congruence); lia|].
      rewrite E. reflexivity.
    - rewrite Nat.mod_small by lia. destruct (nth_error ids (S i)) eqn:En; [reflexivity|]. apply nth_error_None in En. lia. }
  rewrite E in Q at 1. rewrite E. rewrite E in Q. exact Q.
Qed.

(* ---- analysis ---- *)
Lemma nonconsecutive_spec : forall ids si b, si + length ids <= 255 ->
  exists b', ofold (fun '(b, si) id => if (as_u8 (N.of_nat si) =? 255)%N then Panic
            else Ok (b || negb (chsn_s id =? as_u8 (N.of_nat si) + 1)%N, S si)) ids (b, si) = Ok (b', si + length ids) /\
   (b' = false <-> b = false /\ forall i id, nth_error ids i = Some id -> chsn_s id = (N.of_nat (si + i) + 1)%N).
Proof.
  induction ids as [|x ids IH]; intros si b H; cbn [length] in *.
  - exists b. cbn [ofold]. rewrite Nat.add_0_r. split; [reflexivity|]. split; [|tauto]. intros ->. split; [auto|]. intros [|i] id; discriminate.
  - cbn [ofold]. assert (E : as_u8 (N.of_nat si) = N.of_nat si) by (unfold as_u8; apply N.mod_small; lia).
    rewrite E. destruct (N.eqb_spec (N.of_nat si) 255); [lia|]. cbn [obind].
    destruct (IH (S si) (b || negb (chsn_s x =? N.of_nat si + 1)%N)) as (b' & E' & Q); [lia|].
    exists b'. rewrite E'. split; [do 2 f_equal; lia|]. rewrite Q. split.
    + intros [H1 H2]. apply orb_false_iff in H1 as [H1 H3]. split; [auto|]. intros [|i] id Hi.
      * injection Hi as <-. apply negb_false_iff, N.eqb_eq in H3. rewrite H3, Nat.add_0_r. reflexivity.
      * rewrite (H2 i id Hi). f_equal. f_equal. lia.
    + intros [-> H2]. split; [|intros i id Hi; rewrite (H2 (S i) id Hi); f_equal; f_equal; lia].
      rewrite (H2 0 x eq_refl), Nat.add_0_r, N.eqb_refl. reflexivity.
Qed.
Lemma nonconsecutive_panics : forall ids si b, si <= 255 -> 256 <= si + length ids ->
  ofold (fun '(b, si) id => if (as_u8 (N.of_nat si) =? 255)%N then Panic
            else Ok (b || negb (chsn_s id =? as_u8 (N.of_nat si) + 1)%N, S si)) ids (b, si) = Panic.
Proof.
  induction ids as [|x ids IH]; intros si b H1 H2; cbn [length ofold] in *; [lia|].
  assert (E : as_u8 (N.of_nat si) = N.of_nat si) by (unfold as_u8; apply N.mod_small; lia). rewrite E.
  destruct (N.eqb_spec (N.of_nat si) 255); [reflexivity|]. cbn [obind]. apply IH; lia.
Qed.
Lemma consistent_spec (ids : list DiskChsn) n : ids <> [] ->
  ((if 1 <? length (nodup N.eq_dec (map chsn_n ids)) then None else Some (last (map chsn_n ids) 0%N)) = Some n <->
   forall id, In id ids -> chsn_n id = n).
Proof.
  intros Hne. set (l := map chsn_n ids). assert (Hl : l <> []) by (unfold l; destruct ids; [congruence|discriminate]).
  assert (Hin : In (last l 0%N) l) by (destruct (exists_last Hl) as (l' & x & ->); rewrite last_last; apply in_or_app; right; left; auto).
  assert (Hall : (forall id, In id ids -> chsn_n id = n) <-> forall x, In x l -> x = n).
  { unfold l. split; [intros H x Hx; apply in_map_iff in Hx as (id & <- & ?); auto|intros H id Hid; apply H; apply in_map; auto]. }
  rewrite Hall. clear Hall. pose proof (NoDup_nodup N.eq_dec l) as ND. pose proof (nodup_In N.eq_dec l) as NI.
  split.
  - destruct (Nat.ltb_spec 1 (length (nodup N.eq_dec l))) as [H|H]; [discriminate|]. intros E; injection E as E. intros x Hx.
    apply NI in Hx, Hin. destruct (nodup N.eq_dec l) as [|a [|b r]]; cbn [length] in H; [destruct Hx| |lia]. cbn [In] in *. intuition congruence.
  - intros H. destruct (Nat.ltb_spec 1 (length (nodup N.eq_dec l))) as [Hc|Hc]; [exfalso|f_equal; auto].
    destruct (nodup N.eq_dec l) as [|a [|b r]] eqn:En; cbn [length] in Hc; try lia.
    assert (a = n) by (apply H, NI; left; auto). assert (b = n) by (apply H, NI; right; left; auto). subst. inversion ND; subst. apply H2. left; auto.
Qed.
