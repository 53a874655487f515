(* Amiga4_proofs.v - finding and reading the sectors of a loaded Amiga track. *)
From Verif Require Import Base Base_lemmas Chs_model BitRing_model BitRing_proofs Mfm_model Mfm_spec Mfm_proofs Marker_proofs Codec_lemmas
  Crc_model Types_model System34_model BitStream_model OddEven_model Amiga_model Amiga_spec Amiga_proofs Amiga2_proofs Amiga3_proofs.
From Coq Require Import Lia.

Definition bad_header (s : asector) : bool := negb (as_header_sum s =? short_sum s)%N.
Definition bad_data (s : asector) : bool := negb (as_data_sum s =? data_sum s)%N.
Lemma items_cons W lead i s t : items_from W lead i (s :: t) = sector_elems (mark_at W lead i) s ++ items_from W lead (S i) t.
Proof. reflexivity. Qed.
Lemma ids_items W lead : forall ss i, am_sector_ids (items_from W lead i ss) = map id_of ss.
Proof.
  induction ss as [|s t IH]; intros i; [reflexivity|]. rewrite items_cons. unfold am_sector_ids. rewrite flat_map_app. cbn [map].
  change (flat_map _ (items_from W lead (S i) t)) with (am_sector_ids (items_from W lead (S i) t)). rewrite IH. reflexivity.
Qed.
Lemma list_items W lead : forall ss i, am_sector_list (items_from W lead i ss) = map (fun s => mkEntry (id_of s) (mkAttr (bad_header s) (bad_data s) false false)) ss.
Proof.
  induction ss as [|s t IH]; intros i; [reflexivity|]. rewrite items_cons. unfold am_sector_list. rewrite flat_map_app. cbn [map].
  change (flat_map _ (items_from W lead (S i) t)) with (am_sector_list (items_from W lead (S i) t)). rewrite IH. reflexivity.
Qed.
Lemma query_sector q c : query_matches q c = true -> (chsn_s c =? q_s q)%N = true.
Proof.
  unfold query_matches. destruct (N.eqb_spec (q_s q) (chsn_s c)) as [E|E]; cbn [negb]; [|discriminate]. intros _. apply N.eqb_eq. symmetry; exact E.
Qed.
Lemma ltb0 n : (n <? 0) = false.
Proof. destruct n; reflexivity. Qed.
Lemma find_here W lead q : forall ss i ei wc bc wh k s, nth_error ss k = Some s -> query_matches q (id_of s) = true ->
  (forall j s', j < k -> nth_error ss j = Some s' -> query_matches q (id_of s') = false) ->
  am_find_loop q 0 (items_from W lead i ss) ei wc bc wh false = Found (ei + 2 * k + 1) (id_of s) (bad_header s) (bad_data s) false false false.
Proof.
  induction ss as [|s0 t IH]; intros i ei wc bc wh k s Hk Hq Hno; [destruct k; discriminate Hk|].
  rewrite items_cons. unfold sector_elems. cbn [app am_find_loop ai_start ai_elem]. rewrite !ltb0.
  destruct k as [|k].
  - injection Hk as ->. rewrite (query_sector q _ Hq). rewrite Hq. cbn [am_find_loop ai_start ai_elem ai_last]. rewrite ?ltb0.
    unfold bad_header, bad_data. f_equal. lia.
  - pose proof (Hno 0 s0 ltac:(lia) eq_refl) as Hf. rewrite Hf.
    assert (G : forall wc bc wh, am_find_loop q 0 (items_from W lead (S i) t) (S (S ei)) wc bc wh false = Found (ei + 2 * S k + 1) (id_of s) (bad_header s) (bad_data s) false false false).
    { intros. rewrite (IH (S i) (S (S ei)) wc0 bc0 wh0 k s Hk Hq).
      - f_equal. lia.
      - intros j s' Hj Hs'. apply (Hno (S j) s'); [lia|exact Hs']. }
    destruct (chsn_s (id_of s0) =? q_s q)%N; apply G.
Qed.
Lemma find_none W lead q : forall ss i ei wc bc wh, (forall s', In s' ss -> query_matches q (id_of s') = false) ->
  exists a b c, am_find_loop q 0 (items_from W lead i ss) ei wc bc wh false = NotFound a b c.
Proof.
  induction ss as [|s0 t IH]; intros i ei wc bc wh Hno; [eexists _, _, _; reflexivity|].
  rewrite items_cons. unfold sector_elems. cbn [app am_find_loop ai_start ai_elem]. rewrite !ltb0. rewrite (Hno s0 (or_introl eq_refl)).
  destruct (chsn_s (id_of s0) =? q_s q)%N; apply IH; intros; apply Hno; right; assumption.
Qed.
Lemma item_at W lead : forall ss i k s, nth_error ss k = Some s -> nth_error (items_from W lead i ss) (2 * k + 1) = nth_error (sector_elems (mark_at W lead (i + k)) s) 1.
Proof.
  induction ss as [|s0 t IH]; intros i k s Hk; [destruct k; discriminate Hk|]. rewrite items_cons. destruct k as [|k].
  - injection Hk as ->. rewrite Nat.add_0_r. reflexivity.
  - replace (2 * S k + 1) with (S (S (2 * k + 1))) by lia. unfold sector_elems at 1. cbn [app nth_error]. rewrite (IH (S i) k s Hk). replace (S i + k) with (i + S k) by lia. reflexivity.
Qed.
Lemma read_bytes raw X : bytes_ok X = true ->
  (forall k b, nth_error X k = Some b -> exists o e, nth_error raw k = Some o /\ nth_error raw (k + length X) = Some e /\
     N.land o 0x55 = sp (odd_bits b) /\ N.land e 0x55 = sp (even_bits b)) ->
  forall K, K = length X -> forall n, n <= K ->
  ofold (fun acc k => let! o := oindex raw k in let! e := oindex raw (k + K) in
           Ok (acc ++ [N.lor (as_u8 (N.shiftl (N.land o 0x55) 1)) (N.land e 0x55)])%N) (seq 0 n) [] = Ok (firstn n X).
Proof.
  intros Hb H K -> n. induction n as [|n IH]; intros Hn; [reflexivity|].
  rewrite seq_S, TreeMap_proofs.ofold_app. cbn [Nat.add]. rewrite IH by lia. cbn [obind ofold].
  destruct (nth_error X n) as [b|] eqn:Eb; [|apply nth_error_None in Eb; lia].
  destruct (H n b Eb) as (o & e & Eo & Ee & Po & Pe). unfold oindex. rewrite Eo, Ee. cbn [obind]. rewrite Po, Pe.
  assert (Bb : (b < 256)%N). { apply bytes_ok_Forall in Hb. rewrite Forall_forall in Hb. apply Hb. eapply nth_error_In; exact Eb. }
  rewrite join_byte by exact Bb. f_equal. clear - Eb. revert n Eb. induction X as [|x X IH]; intros n Eb; [destruct n; discriminate Eb|].
  destruct n as [|n]; [injection Eb as ->; reflexivity|]. cbn [firstn app]. f_equal. apply IH, Eb.
Qed.
Lemma n_size_2 c : n_size (mkChsn c 2) = N.to_nat 512.
Proof. reflexivity. Qed.
Lemma decode_data rnd m p s i : recorded s -> holds_at m (p + 32) (sector_bits s) -> nth_error (sector_elems p s) 1 = Some i ->
  exists hd crc, am_decode_element rnd m i DataOnly (4 + 512) = Ok (hd ++ as_bytes s, (4, 4 + 512), Some crc) /\ length hd = 4 /\
    exists x, length x = 16 /\ data_sum s = sp x /\ crc = mkIntegrity (as_u16 (bits_val (block (long (as_data_sum s))))) (as_u16 (bits_val x)).
Proof.
  intros Hr H Hi. injection Hi as <-. destruct (fields s Hr) as (F1 & F2 & F3 & F4). pose proof (sector_bits_length s Hr) as LB.
  destruct (Hr) as (I1 & I2 & I3 & I4 & I5 & I6 & I7).
  assert (exists h, 512 = 2 * h) as [h Hh] by (exists 256; reflexivity).
  unfold am_decode_element, am_range, am_size. cbn [ai_elem ai_start]. remember 512 as K eqn:HK.
  assert (K4 : 0 < K) by (rewrite HK; apply Nat.lt_0_succ). clear HK.
  replace (p + mfm_offset 26) with (p + 32 + 16 * 24) by (unfold mfm_offset; lia).
  rewrite (decode_sum rnd m (p + 32) (sector_bits s) 24 H) by lia. cbn [obind].
  replace (p + 32 + 16 * 24 + mfm_offset 4) with (p + 32 + 2 * 224) by (unfold mfm_offset; lia).
  destruct (raw_nth m ((4 + K) * 2) (p + 32 + 2 * 224) 0 (proj1 (proj1 H)) ltac:(lia)) as (raw & Er & Lr). rewrite Er. cbn [obind].
  replace (p + 32 + 2 * 224) with (p + 32 + 16 * 28) by lia.
  rewrite (calc_sum rnd m (p + 32) (sector_bits s) 28 h) by (try exact H; try lia; unfold mfm_offset; lia). cbn [obind].
  rewrite Nat.div_mul by lia. destruct (Nat.ltb_spec (4 + K) 4); [lia|].
  replace (Nat.min (4 + K - 4) (4 + K - 4)) with K by lia.
  rewrite (read_bytes raw (as_bytes s) I7) with (n := K).
  - cbn [obind]. rewrite (firstn_all2 (n := K) (as_bytes s)) by lia.
    set (rec := bits_val _). eexists (firstn 4 (put_front (repeat 0%N (4 + K)) (to_be32 rec))), _. split.
    + rewrite (skipn_all2 (n := 4 + length (as_bytes s))). { rewrite app_nil_r. reflexivity. }
      unfold put_front. rewrite app_length, firstn_length, skipn_length, repeat_length. unfold to_be32. cbn [length]. lia.
    + split; [rewrite firstn_length; unfold put_front; rewrite app_length, firstn_length, skipn_length, repeat_length; unfold to_be32; cbn [length]; lia|].
      assert (LX : length (block (as_bytes s)) = 16 * h) by (rewrite block_length; lia).
      exists (xors h (block (as_bytes s))). split; [apply xors_length; lia|]. split; [unfold data_sum; exact (checksum_xors _ h LX)|].
      unfold rec. change (8 * 24) with 192. rewrite F3. change (8 * 28) with 224. replace (16 * h) with (8 * length (as_bytes s)) by lia. rewrite F4. reflexivity.
  - intros k b Hb. assert (Hk : k < length (as_bytes s)) by (apply nth_error_Some; rewrite Hb; discriminate).
    destruct (block_halves m (p + 32) (sector_bits s) 224 (as_bytes s) ((4 + K) * 2) k raw b H) as (o & e & A & B & _ & C & D); try exact Hb.
    + rewrite block_length. exact F4.
    + rewrite block_length. lia.
    + exact Er.
    + lia.
    + exists o, e. auto.
  - symmetry; exact I6.
  - lia.
Qed.
