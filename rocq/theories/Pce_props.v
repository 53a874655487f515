(* Pce_props.v - C34: PCE chunks; C35: saving and loading PRI images. *)
From Verif Require Import Base Base_lemmas Mfm_spec Crc_spec Crc32_model Crc32_spec Crc32_proofs
  Chs_model BitRing_model Mfm_model Types_model System34_model MetaSector_model BitStream_model BitStream_spec
  DiskImage_model DiskImage_spec DiskImage_proofs
  S34_layout_proofs System34_spec Format_model Raw_model Format2_proofs TreeMap_proofs Bs_general_proofs Bs_history_proofs Bs_more_proofs
  Pce_model Pce_proofs Pce_spec Pce2_proofs Pce3_proofs Pce4_proofs.
From Coq Require Import Lia.

(* ---- C34 ---- *)
Theorem C34_chunk_roundtrip : forall t data rest, (N.of_nat (length data) <= 0x100000)%N ->
  pri_read_chunk (pri_write_chunk t data ++ rest) = Ok (t, data, rest).
Proof. exact pri_read_write. Qed.
(* the chunk layer itself, for every four byte identifier (PSI and PFI use the same layer) *)
Theorem C34_chunk_layer_roundtrip : forall id data rest, length id = 4 -> (N.of_nat (length data) <= 0x100000)%N ->
  read_chunk (write_chunk id data ++ rest) = Ok (id, data, rest).
Proof.
  intros id data rest Hid H. rewrite read_write_chunk by (auto; clear - H; lia).
  replace (MAXIMUM_CHUNK_SIZE <? N.of_nat (length data))%N with false by (symmetry; apply N.ltb_ge; exact H). reflexivity.
Qed.
(* A payload above 1 MiB is written, but the reader rejects the chunk. *)
Theorem C34_too_large : forall t data rest, (0x100000 < N.of_nat (length data) < 2 ^ 32)%N ->
  pri_read_chunk (pri_write_chunk t data ++ rest) = Err FormatParseError.
Proof.
  intros t data rest [H1 H2]. unfold pri_read_chunk, pri_write_chunk.
  rewrite read_write_chunk by (auto using pri_id_length; change (2 ^ 32)%N with 4294967296%N in H2; clear - H2; lia).
  replace (MAXIMUM_CHUNK_SIZE <? N.of_nat (length data))%N with true by (symmetry; apply N.ltb_lt; exact H1). reflexivity.
Qed.
(* Damage of the type, the payload or the CRC within 32 consecutive bits is rejected. *)
Theorem C34_damage_rejected : forall t data damaged rest,
  bytes_ok data = true -> (N.of_nat (length data) <= 0x100000)%N -> bytes_ok damaged = true ->
  burst bits_of 32 damaged (pri_write_chunk t data) ->
  slice damaged 4 4 = slice (pri_write_chunk t data) 4 4 ->       (* the size field is intact *)
  pri_read_chunk (damaged ++ rest) = Err CrcError.
Proof.
  intros t data damaged rest Hd Hl Hb Hburst Hsize. unfold pri_read_chunk.
  rewrite (damaged_chunk (pri_id t) data damaged rest); auto using pri_id_length, pri_id_ok.
Qed.
Example C34_ex : pri_read_chunk (pri_write_chunk PriText [0x68; 0x69]%N ++ [1; 2; 3]%N) = Ok (PriText, [0x68; 0x69]%N, [1; 2; 3]%N).
Proof. vm_compute. reflexivity. Qed.
Example C34_damage_ex :
  let good := pri_write_chunk PriText [0x68; 0x69]%N in
  let bad := upd (upd good 8 0x86%N) 9 0x96%N in
  burst bits_of 32 bad good /\ slice bad 4 4 = slice good 4 4 /\ pri_read_chunk bad = Err CrcError.
Proof.
  cbv zeta. split; [|split; vm_compute; reflexivity].
  split; [reflexivity|]. split; [vm_compute; discriminate|]. exists 64. intros i H.
  destruct (Nat.lt_ge_cases i 64) as [L|L].
  - exfalso. apply H. revert i L H.
    assert (E : firstn 64 (bits_of (upd (upd (pri_write_chunk PriText [0x68; 0x69]%N) 8 0x86%N) 9 0x96%N)) =
                firstn 64 (bits_of (pri_write_chunk PriText [0x68; 0x69]%N))) by (vm_compute; reflexivity).
    intros i L _.
    pose proof (f_equal (fun l => nth_error l i) E) as F. cbv beta in F. rewrite !nth_error_firstn in F.
    apply Nat.ltb_lt in L. rewrite L in F. 
    exact (f_equal (fun o => match o with Some b => b | None => false end)
             (eq_trans (eq_trans eq_refl F) eq_refl)) || (rewrite <- !nth_default_eq; unfold nth_default; rewrite F; reflexivity).
  - destruct (Nat.lt_ge_cases i 96) as [L'|L']; [lia|]. exfalso. apply H.
    pose proof (f_equal (fun l => nth_error l (i - 96)) (eq_refl :
       skipn 96 (bits_of (upd (upd (pri_write_chunk PriText [0x68; 0x69]%N) 8 0x86%N) 9 0x96%N)) =
       skipn 96 (bits_of (pri_write_chunk PriText [0x68; 0x69]%N)))) as F.
    cbv beta in F. rewrite !nth_error_skipn in F. replace (96 + (i - 96)) with i in F by lia.
    rewrite <- !nth_default_eq; unfold nth_default; rewrite F; reflexivity.
Qed.

(* ---- C35 ---- *)
(* what a PRI file can hold *)
Record pri_image (rnd : Rnd) (d : DiskImage) (s : Heads) : Prop := mkPI {
  pi_valid : maps_valid d; pi_shows : shows d s; pi_res : di_res d = [RBitStream];
  pi_some : fst s ++ snd s <> []; pi_label : labelled s;
  pi_cyl : (N.of_nat (Nat.max (length (fst s)) (length (snd s))) < 65536)%N;
  pi_tracks : forall t, In t (fst s ++ snd s) -> exists b, t = TBit b /\ recordable b /\ loadable rnd b }.

Theorem C35_roundtrip : forall rnd scale d s rates comment,
  pri_image rnd d s -> Forall (fun r => r < 2 ^ 32)%N rates ->
  (forall c, comment = Some c -> length c <= 1000) ->
  exists file, pri_save d rates comment = Ok file /\
  forall rest, exists d' s' rates',
    pri_load_image rnd scale di_default (file ++ rest) = Ok (d', rates') /\
    maps_valid d' /\ shows d' s' /\ di_res d' = [RBitStream] /\
    Forall2 restored (fst s) (fst s') /\ Forall2 restored (snd s) (snd s') /\
    di_geom d' = mkCh (N.of_nat (Nat.max (length (fst s)) (length (snd s))))
                      ((match fst s with [] => 0 | _ => 1 end) + (match snd s with [] => 0 | _ => 1 end)) /\
    (* the data rates are not restored *)
    rates' = repeat 0%N (length (fst s ++ snd s)).
Proof.
  intros rnd scale d s rates comment [Hv Hs Hres Hsome Hlab Hcyl Htr] Hrates Hcom.
  pose proof (shows_wf d s Hv Hs) as Hwf.
  assert (Hbit : forall t, In t (fst s ++ snd s) -> exists b, t = TBit b) by (intros t Ht; destruct (Htr t Ht) as (b & -> & _); eauto).
  assert (G : forall l, (forall t, In t l -> In t (fst s ++ snd s)) -> Forall (good_track rnd) l).
  { intros l Hl. apply Forall_forall. intros t Ht. destruct (Htr t (Hl t Ht)) as (b & -> & H). exact H. }
  assert (G0 : Forall (good_track rnd) (fst s)) by (apply G; intros; apply in_or_app; auto).
  assert (G1 : Forall (good_track rnd) (snd s)) by (apply G; intros; apply in_or_app; auto).
  set (n := Nat.max (length (fst s)) (length (snd s))) in *.
  set (ps := flat_map (pair_at d rates) (seq 0 n)).
  set (text := match comment with Some c => [(PriText, c)] | None => [] end).
  assert (Hlen : length (di_map0 d) = length (fst s) /\ length (di_map1 d) = length (snd s)).
  { destruct Hwf as [_ [M0 M1]]. apply map_some_len in M0. apply map_some_len in M1. auto. }
  assert (Hps : Forall (fun p => exists b, snd p = TBit b /\ recordable b) ps).
  { apply Forall_forall. intros p Hp. apply in_flat_map in Hp as (i & _ & Hp). unfold pair_at, pair_in in Hp.
    destruct Hwf as [_ [M0 M1]].
    assert (Hin : In (snd p) (fst s ++ snd s)).
    { apply in_app_or in Hp as [Hp|Hp].
      - pose proof (map_some_nth _ _ _ i M0) as E. destruct (nth_error (di_map0 d) i) as [ti|]; [|destruct Hp].
        destruct (nth_error (di_pool d) ti) as [t|]; [|destruct Hp]. destruct Hp as [<-|[]]. cbn [snd].
        apply in_or_app. left. eapply nth_error_In. symmetry. exact E.
      - pose proof (map_some_nth _ _ _ i M1) as E. destruct (nth_error (di_map1 d) i) as [ti|]; [|destruct Hp].
        destruct (nth_error (di_pool d) ti) as [t|]; [|destruct Hp]. destruct Hp as [<-|[]]. cbn [snd].
        apply in_or_app. right. eapply nth_error_In. symmetry. exact E. }
    destruct (Htr _ Hin) as (b & E & Hr & _). eauto. }
  exists (chunk_bytes ((PriFileHeader, [0; 0; 0; 0]%N) :: text ++ flat_map chunks_of ps) ++ pri_footer).
  split.
  { unfold pri_save. rewrite Hres. change ((1 <? length [RBitStream]) || negb (res_mem RBitStream [RBitStream])) with false.
    assert (Etext : (match comment with
                 | Some c => if 1000 <? length c then Panic else Ok (pri_write_chunk PriText c)
                 | None => Ok [] end) = Ok (chunk_bytes text)).
    { destruct comment as [c|]; [|reflexivity]. specialize (Hcom c eq_refl).
      replace (1000 <? length c) with false by (symmetry; apply Nat.ltb_ge; exact Hcom).
      unfold text, chunk_bytes. cbn [flat_map fst snd]. rewrite app_nil_r. reflexivity. }
    rewrite Etext. cbn [obind]. unfold track_idx_iter. rewrite body_all.
    replace (Nat.max (length (di_map0 d)) (length (di_map1 d))) with n by (destruct Hlen as [-> ->]; reflexivity).
    fold ps. rewrite body_bytes.
    - cbn [obind app]. unfold chunk_bytes at 3. rewrite flat_map_cons. cbn [fst snd].
      fold (chunk_bytes (text ++ flat_map chunks_of ps)). rewrite chunk_bytes_app, <- !app_assoc. reflexivity.
    - eapply Forall_impl; [|exact Hps]. intros p (b & E & _). eauto. }
  intros rest. rewrite <- app_assoc. rewrite pri_load_chunks.
  2: { apply Forall_app. split.
       - unfold text. destruct comment as [c|]; [|constructor]. constructor; [|constructor]. split; [discriminate|].
         cbn [snd]. specialize (Hcom c eq_refl). unfold MAXIMUM_CHUNK_SIZE. clear - Hcom. lia.
       - apply Forall_forall. intros c Hc. apply in_flat_map in Hc as (p & Hp & Hc).
         rewrite Forall_forall in Hps. destruct (Hps p Hp) as (b & E & Hr). unfold chunks_of in Hc. rewrite E in Hc.
         pose proof (track_chunks_readable (fst p) b Hr) as F. rewrite Forall_forall in F. auto. }
  set (st0 := mkPL di_default (mkCh 0 0) 0 0 0 [] [] None []).
  assert (L0 : loaded s 0 st0 ([], [])).
  { unfold loaded, st0. cbn [pl_img pl_clock pl_rates pl_rate pl_cyls pl_heads fst snd length].
    split; [apply empty_wf; reflexivity|]. split; [split; [reflexivity|left; reflexivity]|].
    rewrite !firstn_O. split; [constructor|]. split; [constructor|]. split; [reflexivity|]. split; [reflexivity|].
    split; [intros H; lia|]. split; reflexivity. }
  destruct (load_cylinders rnd scale d s rates Hwf Hlab G0 G1 Hrates st0 _ L0 n (le_n _) ltac:(clear - Hcyl; lia))
    as (st & s' & E & (W & R & F0 & F1 & C & Rt & Rn & Cy & He)).
  fold ps in E.
  assert (Efold : ofold (step_of rnd scale) (text ++ flat_map chunks_of ps) st0 = Ok st).
  { rewrite ofold_app. unfold text. destruct comment as [c|]; exact E. }
  rewrite Efold. cbn [obind].
  rewrite firstn_all2 in F0 by (unfold n; lia). rewrite firstn_all2 in F1 by (unfold n; lia).
  assert (Hn : length (fst s') + length (snd s') = length (fst s ++ snd s)).
  { rewrite app_length, (Forall2_length' _ _ _ F0), (Forall2_length' _ _ _ F1). reflexivity. }
  assert (Hpos : 0 < length (fst s ++ snd s)) by (destruct (fst s ++ snd s); [congruence|cbn; lia]).
  destruct (pl_rate st) as [r|] eqn:Erate; [|exfalso; apply (proj1 (Rn ltac:(lia))); exact Erate].
  eexists _, s', _. split; [reflexivity|].
  split; [exact (proj1 W)|]. split; [exact (wf_shows _ _ (wf_ext (pl_img st) (with_geom (pl_img st) _) s' eq_refl eq_refl eq_refl W))|].
  split.
  { exact (proj2 (Rn ltac:(lia))). }
  split; [exact F0|]. split; [exact F1|]. split.
  - cbn [with_geom di_geom]. rewrite Cy, He, map_length, seq_length. unfold as_u16, as_u8.
    rewrite (N.mod_small (N.of_nat n)) by exact Hcyl. f_equal.
    destruct n as [|n'] eqn:En; [exfalso; unfold n in En; rewrite app_length in Hpos; clear - En Hpos; lia|].
    cbn [seen_heads]. rewrite app_length. destruct (fst s), (snd s); reflexivity.
  - rewrite Rt, Hn. reflexivity.
Qed.

(* The tracks for which the hypothesis `loadable` holds: every track as it was loaded from cells, *)
Theorem C35_loaded_is_loadable : forall rnd ch data n t,
  bt_new (rnd_bit rnd) ch data None (Some n) false = Ok t -> loadable rnd t.
Proof.
  intros rnd ch data n t H. pose proof H as Hnew. destruct (new_cells _ _ _ _ _ H) as (m & bits & Em & Hb & Hn & Hd & _ & _ & Hch & _).
  assert (Ec : cells t = firstn n bits).
  { unfold cells, mfm_data. rewrite Hd. unfold mfm_new in Em.
    destruct (length (repeat false (length (firstn n bits))) <? length (firstn n bits)); [discriminate|]. injection Em as <-. reflexivity. }
  exists t. rewrite Hch.
  assert (B : forall data', data' <> [] -> firstn (length (cells t)) (flat_map byte_bits data') = firstn n bits ->
     bt_new (rnd_bit rnd) ch data' None (Some (length (cells t))) false = bt_new (rnd_bit rnd) ch data None (Some n) false).
  { intros data' Hne E.
    assert (Em' : mfm_new (flat_map byte_bits data') (Some (length (cells t))) None = mfm_new bits (Some n) None).
    { unfold mfm_new. rewrite E. reflexivity. }
    unfold bt_new. cbn [option_map]. destruct data' as [|x y]; [congruence|]. cbn [obind]. rewrite Em'.
    destruct data as [|x' y'].
    - destruct (Hn eq_refl) as (n' & En & Eb). injection En as <-. rewrite <- Eb. cbn [obind]. reflexivity.
    - rewrite <- (Hb ltac:(discriminate)). cbn [obind]. reflexivity. }
  destruct (to_bytes (cells t)) as [|x y] eqn:E.
  - apply to_bytes_nil in E. rewrite E in *. cbn [length].
    assert (Em' : mfm_new [] (Some 0) None = mfm_new bits (Some n) None) by (unfold mfm_new; rewrite <- Ec; reflexivity).
    rewrite <- Hnew. unfold bt_new. cbn [option_map obind seq map]. rewrite Em'.
    destruct data as [|x' y'].
    + destruct (Hn eq_refl) as (n' & En & Eb). injection En as <-. rewrite <- Eb. cbn [obind]. reflexivity.
    + rewrite <- (Hb ltac:(discriminate)). cbn [obind]. reflexivity.
  - rewrite B; [exact Hnew|discriminate|]. rewrite <- E, to_bytes_first. exact Ec.
Qed.
(* and every track formatted by fluxfox. *)
Theorem C35_formatted_is_loadable : forall rnd rnd' t std ids pat gap3, format_ok t std ids pat gap3 -> ids <> [] ->
  exists t', bt_format rnd' t std ids pat gap3 = Ok t' /\ loadable rnd t'.
Proof.
  intros rnd rnd' t std ids pat gap3 Hf Hne. destruct (format_ok_good rnd' _ _ _ _ _ Hf) as (t' & E & G & _ & _ & _).
  exists t'. split; [exact E|].
  assert (Hss : filled pat 0 ids <> []) by (intros Z; apply Hne; rewrite <- (filled_ids pat 0 ids), Z; reflexivity).
  destruct (reload_good (rnd_bit rnd) (bt_ch t') _ _ _ _ _ G Hss) as (t2 & E2 & _). exists t2. exact E2.
Qed.

(* Findings: what is not restored. *)
Definition weak_example : BitTrack :=
  mkTrack (mkCh 0 0)
    (mkMfm (ring_from (flat_map byte_bits (repeat 0x52%N 12))) (ring_set_wrap_value (ring_from (repeat true 96)) (Some false))
           (ring_from (repeat false 96)) true (ring_from (repeat false 40 ++ repeat true 16 ++ repeat false 40)) 1 1 [] [])
    meta_default false.
Definition weak_image : DiskImage := push_track (with_res di_default [RBitStream]) 0 (TBit weak_example).
Definition zero_rnd : Rnd := mkRnd (fun _ => 0%N) (fun _ => false) (fun _ _ => 0%N).
(* the weak mask comes back one cell late, and the data rate as 0 *)
Theorem C35_weak_mask_refuted : exists file d' rates' t',
  pri_save weak_image [500000]%N None = Ok file /\
  pri_load_image zero_rnd (fun _ _ => 0%N) di_default file = Ok (d', rates') /\
  di_track d' (mkCh 0 0) = Ok (Some (TBit t')) /\ cells t' = cells weak_example /\
  weak_cells t' = repeat false 41 ++ repeat true 16 ++ repeat false 39 /\
  weak_cells t' <> weak_cells weak_example /\ rates' = [0]%N.
Proof.
  eexists _, _, _, _. split; [vm_compute; reflexivity|]. split; [vm_compute; reflexivity|].
  split; [vm_compute; reflexivity|]. split; [vm_compute; reflexivity|]. split; [vm_compute; reflexivity|].
  split; [vm_compute; discriminate|]. reflexivity.
Qed.
(* an image without tracks is saved, but loading the file panics *)
Theorem C35_no_tracks_refuted : forall rnd scale, exists file,
  pri_save (set_resolution di_default RBitStream) [] None = Ok file /\
  pri_load_image rnd scale di_default file = Panic.
Proof. intros rnd scale. eexists. split; [vm_compute; reflexivity|]. vm_compute. reflexivity. Qed.
(* a comment above 1000 bytes panics *)
Theorem C35_comment_refuted : forall d rates c, di_res d = [RBitStream] -> 1000 < length c -> pri_save d rates (Some c) = Panic.
Proof.
  intros d rates c Hr Hc. unfold pri_save. rewrite Hr.
  change ((1 <? length [RBitStream]) || negb (res_mem RBitStream [RBitStream])) with false.
  replace (1000 <? length c) with true by (symmetry; apply Nat.ltb_lt; exact Hc). reflexivity.
Qed.
(* other resolutions are rejected, not misrepresented *)
Theorem C35_other_resolutions : forall d rates comment, di_res d <> [RBitStream] -> NoDup (di_res d) ->
  pri_save d rates comment = Err UnsupportedFormat.
Proof.
  intros d rates comment H Hd. unfold pri_save. destruct (di_res d) as [|r [|r2 l]] eqn:E; [reflexivity| |reflexivity].
  destruct r; try reflexivity. congruence.
Qed.
(* the example meets the hypotheses of the round trip *)
Example C35_ex : pri_image zero_rnd weak_image ([TBit weak_example], []).
Proof.
  assert (W : wf weak_image ([TBit weak_example], [])).
  { apply (push_wf (with_res di_default [RBitStream]) ([], []) 0); [apply with_res_wf, empty_wf; reflexivity|reflexivity]. }
  constructor.
  - exact (proj1 W).
  - apply wf_shows. exact W.
  - reflexivity.
  - discriminate.
  - intros c h t Hh E. assert (E0 : h = 0%N \/ h = 1%N) by lia. destruct E0 as [-> | ->]; cbn [side fst snd] in E; [|destruct c; discriminate].
    destruct c as [|[|c]]; try discriminate. injection E as <-. exists weak_example. split; reflexivity.
  - reflexivity.
  - intros t [<-|[]]. exists weak_example. split; [reflexivity|]. split.
    + split; [reflexivity|]. split; [vm_compute; discriminate|]. intros _. vm_compute. discriminate.
    + eexists. vm_compute. reflexivity.
Qed.

Print Assumptions C34_chunk_roundtrip.
Print Assumptions C34_chunk_layer_roundtrip.
Print Assumptions C34_too_large.
Print Assumptions C34_damage_rejected.
Print Assumptions C35_roundtrip.
Print Assumptions C35_loaded_is_loadable.
Print Assumptions C35_formatted_is_loadable.
Print Assumptions C35_weak_mask_refuted.
Print Assumptions C35_no_tracks_refuted.
Print Assumptions C35_comment_refuted.
Print Assumptions C35_other_resolutions.
