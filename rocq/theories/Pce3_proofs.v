(* Pce3_proofs.v - loading what the PRI writer wrote: one track. *)
From Verif Require Import Base Base_lemmas Mfm_spec Mfm_proofs Crc_proofs Crc32_model Crc32_spec Crc32_proofs Marker_proofs
  Chs_model BitRing_model Mfm_model Types_model System34_model MetaSector_model BitStream_model DiskImage_model DiskImage_spec DiskImage_proofs
  Format_model Raw_model Bs_general_proofs Format2_proofs TreeMap_proofs Pce_model Pce_proofs Pce_spec Pce2_proofs.
From Coq Require Import Lia Sorting.Sorted.

Definition has_weak (b : BitTrack) : bool := existsb (fun x => x) (weak_cells b).
Definition track_chunks (rate : N) (b : BitTrack) : list (PriChunkType * list N) :=
  [(PriTrackHeader, be32 (ch_c (bt_ch b)) ++ be32 (ch_h (bt_ch b)) ++ be32 (as_u32 (N.of_nat (length (cells b)))) ++ be32 rate);
   (PriTrackData, to_bytes (cells b))] ++
  (if has_weak b then [(PriWeakMask, weak_table (weak_cells b))] else []).
Lemma write_track_chunks rate b : pri_write_track rate (TBit b) = Ok (chunk_bytes (track_chunks rate b)).
Proof.
  unfold pri_write_track, track_chunks, has_weak, chunk_bytes, weak_cells, cells. cbv zeta.
  destruct (existsb _ _); cbn [app flat_map fst snd]; rewrite ?app_nil_r; reflexivity.
Qed.
Lemma to_bytes_len l : 8 * length (to_bytes l) <= length l + 7.
Proof. unfold to_bytes. destruct (to_bytes_props (length l) l (le_n _)) as (_ & _ & H & _). exact H. Qed.
Lemma to_bytes_first l : firstn (length l) (flat_map byte_bits (to_bytes l)) = l.
Proof. unfold to_bytes. destruct (to_bytes_props (length l) l (le_n _)) as (H & _). exact H. Qed.
Lemma to_bytes_nil l : to_bytes l = [] -> l = [].
Proof. intros H. pose proof (to_bytes_first l) as E. rewrite H in E. cbn [flat_map] in E. rewrite firstn_nil in E. auto. Qed.
Lemma weak_table_len l : 4 * length (weak_table l) <= length l + 31.
Proof.
  unfold weak_table. rewrite flat_map_entries_length. destruct (entries_bounds (length l) 0 l) as [_ H]. lia.
Qed.
Lemma header_len a b c d : length (be32 a ++ be32 b ++ be32 c ++ be32 d) = 16.
Proof. reflexivity. Qed.
Lemma track_chunks_readable rate b : recordable b -> Forall readable (track_chunks rate b).
Proof.
  intros (Hl & Hs & Hw). unfold track_chunks. rewrite Forall_app. split.
  - constructor; [|constructor; [|constructor]]; unfold readable; cbn [fst snd]; (split; [discriminate|]).
    + rewrite header_len. unfold MAXIMUM_CHUNK_SIZE. lia.
    + pose proof (to_bytes_len (cells b)). unfold MAXIMUM_CHUNK_SIZE. lia.
  - destruct (has_weak b) eqn:E; [|constructor]. constructor; [|constructor]. unfold readable. cbn [fst snd]. split; [discriminate|].
    specialize (Hw E). pose proof (weak_table_len (weak_cells b)). unfold weak_table in *. rewrite flat_map_entries_length in *.
    unfold MAXIMUM_CHUNK_SIZE. destruct (entries_bounds (length (weak_cells b)) 0 (weak_cells b)) as [_ B]. lia.
Qed.

(* the cells of a track built from to_bytes *)
Lemma loadable_new rnd t t' : bt_new (rnd_bit rnd) (bt_ch t) (to_bytes (cells t)) None (Some (length (cells t))) false = Ok t' ->
  bt_ch t' = bt_ch t /\ cells t' = cells t /\ weak_cells t' = repeat false (length (cells t)).
Proof.
  intros H. destruct (new_cells _ _ _ _ _ H) as (m & bits & Em & Hb & Hn & Hd & Hw & _ & Hch & _).
  assert (Eb : firstn (length (cells t)) bits = cells t).
  { destruct (to_bytes (cells t)) as [|x y] eqn:E.
    - apply to_bytes_nil in E. destruct (Hn eq_refl) as (n & En & Eb). injection En as <-. rewrite Eb, E. reflexivity.
    - rewrite <- (to_bytes_first (cells t)) at 2. rewrite E. rewrite (Hb ltac:(discriminate)). reflexivity. }
  unfold mfm_new in Em. rewrite Eb in Em.
  destruct (length (repeat false (length (cells t))) <? length (cells t)); [discriminate|].
  unfold cells, weak_cells, mfm_data. rewrite Hd, Hw. split; [exact Hch|].
  injection Em as <-. cbn [m_bits m_weak ring_from r_bits]. split; reflexivity.
Qed.

Lemma no_weak_repeat (l : list bool) : existsb (fun x => x) l = false -> l = repeat false (length l).
Proof. induction l as [|b l IH]; intros H; [reflexivity|]. cbn in H. destruct b; [discriminate|]. cbn [length repeat]. f_equal. auto. Qed.
Lemma reweak_ch t l : bt_ch (reweak t l) = bt_ch t. Proof. reflexivity. Qed.
Lemma reweak_cells t l : cells (reweak t l) = cells t. Proof. reflexivity. Qed.

Lemma append_side s h t : (h < 2)%N -> side (append_to s h t) h = side s h ++ [t].
Proof. intros H. assert (E : h = 0%N \/ h = 1%N) by lia. destruct E as [-> | ->]; reflexivity. Qed.
Lemma append_replace s h t t' c : (h < 2)%N -> length (side s h) = N.to_nat c ->
  replace_at (append_to s h t) (mkCh c h) t' = append_to s h t'.
Proof.
  intros H L. assert (E : h = 0%N \/ h = 1%N) by lia.
  assert (U : forall l : list DTrack, length l = N.to_nat c -> upd (l ++ [t]) (N.to_nat c) t' = l ++ [t']).
  { intros l <-. induction l as [|x l IH]; [reflexivity|]. cbn [app length upd]. f_equal. exact IH. }
  destruct E as [-> | ->]; unfold replace_at, append_to; cbn [ch_h ch_c fst snd side] in *; rewrite U by exact L; reflexivity.
Qed.
Lemma app_nth_last {A} (l : list A) x n : length l = n -> nth_error (l ++ [x]) n = Some x.
Proof. intros <-. rewrite nth_error_app2, Nat.sub_diag by lia. reflexivity. Qed.

Definition started (st : PriLoad) : Prop := pl_rate st <> None /\ di_res (pl_img st) = [RBitStream].
#[local] Opaque weak_entries load_entries.
Lemma load_track rnd scale rate c h b st s :
  bt_ch b = mkCh c h -> (c < 65536)%N -> (h < 2)%N -> (rate < 4294967296)%N -> recordable b -> loadable rnd b ->
  wf (pl_img st) s -> res_free (pl_img st) -> length (side s h) = N.to_nat c ->
  exists st' b', ofold (step_of rnd scale) (track_chunks rate b) st = Ok st' /\
    wf (pl_img st') (append_to s h (TBit b')) /\ restored (TBit b) (TBit b') /\ res_free (pl_img st') /\
    pl_clock st' = pl_clock st /\ pl_rates st' = pl_rates st ++ [pl_clock st] /\ started st' /\
    pl_cyls st' = set_insert c (pl_cyls st) /\ pl_heads st' = set_insert h (pl_heads st).
Proof.
  intros Hch Hc Hh Hrate Hrec (t' & Hnew) Hwf Hres Hlen.
  pose proof (loadable_new _ _ _ Hnew) as (Nch & Ncells & Nweak).
  destruct Hrec as (Rw & Rl & Rweak).
  assert (Hl32 : (N.of_nat (length (cells b)) < 4294967296)%N) by (clear - Rl; lia).
  unfold track_chunks. rewrite Hch. cbn [ch_c ch_h]. rewrite as_u32_small by exact Hl32.
  set (n32 := N.of_nat (length (cells b))) in *.
  (* header *)
  set (st1 := mkPL (pl_img st) (mkCh c h) (pl_clock st) rate n32 (set_insert c (pl_cyls st)) (set_insert h (pl_heads st)) (pl_rate st) (pl_rates st)).
  assert (S1 : step_of rnd scale st (PriTrackHeader, be32 c ++ be32 h ++ be32 n32 ++ be32 rate) = Ok st1).
  { unfold step_of. cbn [fst snd pri_step].
    rewrite read_be32_app by (clear - Hc; lia). cbn [obind]. rewrite read_be32_app by (clear - Hh; lia). cbn [obind].
    rewrite read_be32_app by exact Hl32. cbn [obind].
    rewrite <- (app_nil_r (be32 rate)). rewrite read_be32_app by exact Hrate. cbn [obind parse_err].
    assert (E1 : as_u16 c = c) by (apply N.mod_small; exact Hc).
    assert (E2 : as_u8 h = h) by (apply N.mod_small; clear - Hh; lia).
    rewrite E1, E2. reflexivity. }
  (* data *)
  destruct Hres as [Hmul Hres].
  assert (Hrej : res_rejects (pl_img st) RBitStream = false) by (unfold res_rejects; rewrite Hmul; destruct Hres as [-> | ->]; reflexivity).
  set (d1 := push_track (with_res (pl_img st) (res_insert RBitStream (di_res (pl_img st)))) h (TBit t')).
  set (st2 := mkPL d1 (mkCh c h) (pl_clock st) rate n32 (set_insert c (pl_cyls st)) (set_insert h (pl_heads st))
                (Some (match pl_rate st with Some r => r | None => pl_clock st end)) (pl_rates st ++ [pl_clock st])).
  assert (S2 : step_of rnd scale st1 (PriTrackData, to_bytes (cells b)) = Ok st2).
  { unfold step_of. cbn [fst snd pri_step]. unfold st1 at 1 2 3 4 5. cbn [pl_rate pl_img pl_ch pl_bit_length pl_clock].
    unfold add_track_bitstream. cbn [ch_h]. destruct (N.leb_spec 2 h); [exfalso; clear - Hh H; lia|]. rewrite Hrej.
    unfold n32 at 1. rewrite Nat2N.id. rewrite Hch in Hnew. rewrite Hnew. reflexivity. }
  assert (Hwf1 : wf d1 (append_to s h (TBit t'))) by (apply push_wf; [apply with_res_wf; exact Hwf|exact Hh]).
  assert (Hres1 : res_free d1).
  { unfold d1, res_free, push_track. cbn. split; [exact Hmul|]. right. destruct Hres as [-> | ->]; reflexivity. }
  assert (Hres2 : di_res d1 = [RBitStream]) by (unfold d1, push_track; cbn; destruct Hres as [-> | ->]; reflexivity).
  destruct (has_weak b) eqn:Ew; unfold has_weak in Ew.
  2: { exists st2, t'. split; [cbn [app ofold]; rewrite S1; cbn [obind]; rewrite S2; reflexivity|].
       split; [exact Hwf1|]. split.
       { unfold restored. split; [exact Nch|]. split; [exact Ncells|]. rewrite Ew, Nweak, <- Rw. symmetry. apply no_weak_repeat. exact Ew. }
       split; [exact Hres1|]. split; [reflexivity|]. split; [reflexivity|]. split; [split; [discriminate|exact Hres2]|]. split; reflexivity. }
  (* weak mask *)
  specialize (Rweak Ew).
  destruct (wf_seek d1 _ (mkCh c h) (TBit t') Hwf1 Hh) as [ti Hti].
  { cbn [ch_h ch_c]. rewrite append_side by exact Hh. apply app_nth_last. exact Hlen. }
  destruct (seek_track_inv _ _ _ _ _ Hwf1 Hti) as (_ & _ & Hmap & Hpool). cbn [ch_h ch_c] in Hmap.
  set (es := weak_entries (length (weak_cells b)) 0 (weak_cells b)).
  set (b' := reweak t' (load_entries es (weak_cells t'))).
  set (st3 := mkPL (with_pool d1 (upd (di_pool d1) ti (TBit b'))) (mkCh c h) (pl_clock st) rate n32 (set_insert c (pl_cyls st)) (set_insert h (pl_heads st))
                (Some (match pl_rate st with Some r => r | None => pl_clock st end)) (pl_rates st ++ [pl_clock st])).
  assert (S3 : step_of rnd scale st2 (PriWeakMask, weak_table (weak_cells b)) = Ok st3).
  { assert (Emod : (length (weak_table (weak_cells b)) mod 8 =? 0) = true).
    { apply Nat.eqb_eq. unfold weak_table. rewrite flat_map_entries_length, Nat.mul_comm. apply Nat.mod_mul. discriminate. }
    assert (Ediv : length (weak_table (weak_cells b)) / 8 = length es).
    { unfold weak_table. rewrite flat_map_entries_length, Nat.mul_comm. apply Nat.div_mul. discriminate. }
    assert (Eload : weak_load (length es) (weak_table (weak_cells b)) t' = Ok b').
    { unfold weak_table. apply weak_load_spec.
      pose proof (entries_masks (length (weak_cells b)) 0 (weak_cells b)) as M.
      destruct (entries_bounds (length (weak_cells b)) 0 (weak_cells b)) as [B _]. fold es in M, B.
      rewrite Forall_forall in *. intros e He. split; [|apply M; exact He]. specialize (B e He). clear - B Rw Rweak. lia. }
    unfold step_of. cbn [fst snd pri_step]. rewrite Emod. cbn [negb]. unfold st2 at 1 2 3 4. cbn [pl_ch pl_img ch_h ch_c].
    assert (Ehm : head_map d1 h = Ok (if (h =? 0)%N then di_map0 d1 else di_map1 d1)).
    { assert (E : h = 0%N \/ h = 1%N) by (clear - Hh; lia). destruct E as [-> | ->]; reflexivity. }
    rewrite Ehm. cbn [obind]. rewrite Hmap, Hpool, Ediv, Eload. reflexivity. }
  exists st3, b'. split; [cbn [app ofold]; rewrite S1; cbn [obind]; rewrite S2; cbn [obind]; rewrite S3; reflexivity|].
  split.
  { unfold st3. cbn [pl_img]. rewrite <- (append_replace s h (TBit t') (TBit b') c Hh Hlen).
    apply replace_wf with (TBit t'); assumption. }
  split.
  { unfold restored. split; [exact Nch|]. split; [exact Ncells|]. rewrite Ew.
    unfold b'. unfold weak_cells at 1. rewrite reweak_bits, Nweak, <- Rw. apply entries_one_late. }
  split; [exact Hres1|]. split; [reflexivity|]. split; [reflexivity|]. split; [split; [discriminate|exact Hres2]|]. split; reflexivity.
Qed.
