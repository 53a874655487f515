(* S34_ops_proofs.v - sector operations on a bitstream track that holds given sectors. *)
From Verif Require Import Base Base_lemmas Chs_model Chs_proofs BitRing_model BitRing_proofs Mfm_model Mfm_spec Mfm_proofs Marker_proofs Codec_lemmas
  Crc_model Crc16_proofs Types_model System34_model System34_spec Stream_proofs S34_layout_proofs S34_format_proofs S34_scan_proofs S34_clock_proofs
  S34_meta_proofs BitStream_model TreeMap_proofs MetaSector_proofs S34_track_proofs.
From Coq Require Import Lia.

(* ---- finding a sector ---- *)
Definition eligible (q : DiskChsnQuery) (index : nat) (x : nat * fsector) : bool :=
  (index <=? 16 * idam_at (fst x)) && query_matches q (fs_id (snd x)).
Definition same_s (q : DiskChsnQuery) (index : nat) (x : nat * fsector) : bool :=
  (index <=? 16 * idam_at (fst x)) && (chsn_s (fs_id (snd x)) =? q_s q)%N.
Fixpoint lookup (q : DiskChsnQuery) (index : nat) (sl : list (nat * fsector)) : option (nat * (nat * fsector)) :=
  match sl with
  | [] => None
  | x :: t => if eligible q index x then Some (0, x)
              else match lookup q index t with Some (k, y) => Some (S k, y) | None => None end
  end.
Definition flag_c q index sl := existsb (fun x => same_s q index x && opt_ne (q_c q) (chsn_c (fs_id (snd x)))) sl.
Definition flag_h q index sl := existsb (fun x => same_s q index x && opt_ne (q_h q) (chsn_h (fs_id (snd x)))) sl.
Definition flag_ff q index (sl : list (nat * fsector)) := existsb (fun x => same_s q index x && (chsn_c (fs_id (snd x)) =? 0xFF)%N) sl.

Lemma find_last q index : forall l ei wc bc wh mt k a b c,
  find_elem_loop q index (l ++ [mkInst (ElMarker k) a b c true]) ei wc bc wh mt =
  find_elem_loop q index (l ++ [mkInst (ElMarker k) a b c false]) ei wc bc wh mt.
Proof.
  induction l as [|i l IH]; intros; cbn [app find_elem_loop i_start i_elem].
  - destruct (a <? index); reflexivity.
  - destruct (i_start i <? index); [apply IH|]. destruct (i_elem i); try apply IH.
    + destruct (chsn_s chsn =? q_s q)%N; [|apply IH]. destruct (address_error || data_missing); [reflexivity|]. apply IH.
    + destruct mt; [reflexivity|apply IH].
Qed.

Lemma query_matches_s q id : query_matches q id = true -> (chsn_s id =? q_s q)%N = true.
Proof. intros H. apply query_matches_iff in H as (H & _). apply N.eqb_eq. auto. Qed.

Lemma find_slots q index std gap3 : forall ss off ei wc bc wh,
  find_elem_loop q index (flat_map (sector_items std) (slots std gap3 off ss)) ei wc bc wh false =
  match lookup q index (slots std gap3 off ss) with
  | Some (k, (o, s)) => Found (ei + 4 * k + 2) (fs_id s) false false false false false
  | None => NotFound (wc || flag_c q index (slots std gap3 off ss)) (bc || flag_ff q index (slots std gap3 off ss))
                     (wh || flag_h q index (slots std gap3 off ss))
  end.
Proof.
  induction ss as [|s ss IH]; intros off ei wc bc wh.
  - cbn [slots flat_map find_elem_loop lookup flag_c flag_ff flag_h existsb]. rewrite !orb_false_r. reflexivity.
  - cbn [slots flat_map sector_items app]. unfold flag_c, flag_ff, flag_h. cbn [lookup existsb].
    fold (flag_c q index (slots std gap3 (off + sector_len std gap3 s) ss)).
    fold (flag_ff q index (slots std gap3 (off + sector_len std gap3 s) ss)).
    fold (flag_h q index (slots std gap3 (off + sector_len std gap3 s) ss)).
    unfold eligible, same_s. cbn [fst snd].
    cbn [find_elem_loop i_start i_elem i_last].
    assert (Hd : 16 * idam_at off <= 16 * dam_at std off) by (unfold idam_at, dam_at; lia).
    destruct (Nat.ltb_spec (16 * idam_at off) index) as [Hlt|Hge].
    + replace (index <=? 16 * idam_at off) with false by (symmetry; apply Nat.leb_gt; auto). cbn [andb orb].
      assert (E : find_elem_loop q index (flat_map (sector_items std) (slots std gap3 (off + sector_len std gap3 s) ss)) (S (S (S (S ei)))) wc bc wh false
        = match lookup q index (slots std gap3 (off + sector_len std gap3 s) ss) with
          | Some (k, y) => match (S k, y) with (k, (_, s0)) => Found (ei + 4 * k + 2) (fs_id s0) false false false false false end
          | None => NotFound (wc || flag_c q index (slots std gap3 (off + sector_len std gap3 s) ss))
              (bc || flag_ff q index (slots std gap3 (off + sector_len std gap3 s) ss)) (wh || flag_h q index (slots std gap3 (off + sector_len std gap3 s) ss)) end).
      { rewrite IH. destruct (lookup q index (slots std gap3 (off + sector_len std gap3 s) ss)) as [[k [o x]]|]; auto. f_equal. lia. }
      assert (E2 : (if 16 * dam_at std off <? index then
           (if 16 * dam_at std off <? index then find_elem_loop q index (flat_map (sector_items std) (slots std gap3 (off + sector_len std gap3 s) ss)) (S (S (S (S ei)))) wc bc wh false
            else find_elem_loop q index (flat_map (sector_items std) (slots std gap3 (off + sector_len std gap3 s) ss)) (S (S (S (S ei)))) wc bc wh false)
         else
           (if 16 * dam_at std off <? index then find_elem_loop q index (flat_map (sector_items std) (slots std gap3 (off + sector_len std gap3 s) ss)) (S (S (S (S ei)))) wc bc wh false
            else find_elem_loop q index (flat_map (sector_items std) (slots std gap3 (off + sector_len std gap3 s) ss)) (S (S (S (S ei)))) wc bc wh false))
         = find_elem_loop q index (flat_map (sector_items std) (slots std gap3 (off + sector_len std gap3 s) ss)) (S (S (S (S ei)))) wc bc wh false)
        by (destruct (16 * dam_at std off <? index); reflexivity).
      rewrite E2, E. destruct (lookup q index (slots std gap3 (off + sector_len std gap3 s) ss)) as [[k [o x]]|]; reflexivity.
    + replace (index <=? 16 * idam_at off) with true by (symmetry; apply Nat.leb_le; auto).
      replace (16 * dam_at std off <? index) with false by (symmetry; apply Nat.ltb_ge; lia). cbn [andb orb].
      destruct (chsn_s (fs_id s) =? q_s q)%N eqn:Es; cbn [andb].
      * destruct (query_matches q (fs_id s)) eqn:Em.
        -- f_equal; lia.
        -- rewrite IH. destruct (lookup q index (slots std gap3 (off + sector_len std gap3 s) ss)) as [[k [o x]]|]; [f_equal; lia|].
           f_equal; destruct (opt_ne (q_c q) (chsn_c (fs_id s))), (chsn_c (fs_id s) =? 0xFF)%N, (opt_ne (q_h q) (chsn_h (fs_id s))), wc, bc, wh; reflexivity.
      * destruct (query_matches q (fs_id s)) eqn:Em; [apply query_matches_s in Em; congruence|].
        rewrite IH. destruct (lookup q index (slots std gap3 (off + sector_len std gap3 s) ss)) as [[k [o x]]|]; [f_equal; lia|reflexivity].
Qed.

Lemma find_track q index std gap3 ss :
  find_sector_element q (track_items std gap3 ss) index =
  match lookup q index (track_slots std gap3 ss) with
  | Some (k, (o, s)) => Found (data_index std k) (fs_id s) false false false false false
  | None => NotFound (flag_c q index (track_slots std gap3 ss)) (flag_ff q index (track_slots std gap3 ss)) (flag_h q index (track_slots std gap3 ss))
  end.
Proof.
  unfold find_sector_element.
  assert (E : find_elem_loop q index (track_items std gap3 ss) 0 false false false false =
              find_elem_loop q index (plain_items std gap3 ss) 0 false false false false).
  { unfold track_items. fold (plain_items std gap3 ss).
    destruct (plain_items_last std gap3 ss) as [E|(l' & k & a & b & c & E)]; rewrite E; [reflexivity|].
    rewrite map_last_snoc. apply find_last. }
  rewrite E. unfold plain_items, iam_items, data_index, iam_items. destruct (iam_at std) as [p|].
  - cbn [app find_elem_loop i_start i_elem length]. unfold track_slots. rewrite !find_slots.
    destruct (16 * p <? index); destruct (lookup q index (slots std gap3 (length (preamble std)) ss)) as [[k [o x]]|]; reflexivity.
  - cbn [app length]. unfold track_slots. rewrite find_slots.
    destruct (lookup q index (slots std gap3 (length (preamble std)) ss)) as [[k [o x]]|]; reflexivity.
Qed.

Lemma lookup_some q index sl k x : lookup q index sl = Some (k, x) ->
  nth_error sl k = Some x /\ eligible q index x = true /\ forall j y, j < k -> nth_error sl j = Some y -> eligible q index y = false.
Proof.
  revert k; induction sl as [|y sl IH]; intros k H; cbn [lookup] in H; [discriminate|].
  destruct (eligible q index y) eqn:E.
  - injection H as <- <-. repeat split; auto. intros j z Hj; lia.
  - destruct (lookup q index sl) as [[k' x']|] eqn:El; [|discriminate]. injection H as <- <-.
    destruct (IH _ eq_refl) as (H1 & H2 & H3). repeat split; auto. intros [|j] z Hj Hz; cbn in Hz; [congruence|].
    apply (H3 j z); auto; lia.
Qed.
Lemma lookup_none q index sl : lookup q index sl = None -> forall x, In x sl -> eligible q index x = false.
Proof.
  induction sl as [|y sl IH]; intros H x Hx; [destruct Hx|]. cbn [lookup] in H.
  destruct (eligible q index y) eqn:E; [discriminate|].
  destruct (lookup q index sl) as [[k' x']|] eqn:El; [discriminate|]. destruct Hx as [<-|Hx]; auto.
Qed.

(* ---- reading ---- *)
Lemma data_field_split d : data_field d = ([0xA1; 0xA1; 0xA1; 0xFB]%N ++ d) ++
  [(crc_ibm_3740 ([0xA1; 0xA1; 0xA1; 0xFB]%N ++ d) None / 256)%N; (crc_ibm_3740 ([0xA1; 0xA1; 0xA1; 0xFB]%N ++ d) None mod 256)%N].
Proof. reflexivity. Qed.

Section Track.
Context (std : Standard) (gap3 : nat) (ss : list fsector) (t : BitTrack) (B : list N).
Hypothesis (G : good std gap3 ss t B).

Lemma slot_facts i o s : nth_error (track_slots std gap3 ss) i = Some (o, s) ->
  sector_ok s /\ first_mark (track_marks std gap3 ss) <= 16 * idam_at o /\
  dam_at std o + length (fs_data s) + 6 <= length B /\ slice B (dam_at std o) (length (fs_data s) + 6) = data_field (fs_data s).
Proof.
  intros H. pose proof (g_holds _ _ _ _ _ G) as Hh. split.
  { pose proof (slots_sec _ _ _ _ _ _ _ H) as Hs. apply nth_error_In in Hs. pose proof (g_ok _ _ _ _ _ G) as Hok.
    rewrite Forall_forall in Hok. auto. }
  split.
  { destruct (slot_end _ _ _ _ _ _ H) as [H1 _]. rewrite preamble_length in H1. unfold idam_at.
    destruct ss as [|s0 ss0]; [destruct i; discriminate H|].
    destruct std; cbn [track_marks iam_at app first_mark track_slots slots flat_map]; unfold idam_at; rewrite ?preamble_length; clear - H1; lia. }
  split; [destruct (holds_slot _ _ _ _ _ Hh _ _ _ H) as [_ H2]; unfold dam_at; clear - H2; lia|].
  apply (h_data _ _ _ _ _ Hh _ _ _ H).
Qed.

Lemma read_found rnd q offset k o s debug : bt_schema t = true ->
  lookup q (off_of offset) (track_slots std gap3 ss) = Some (k, (o, s)) ->
  bt_read_sector rnd t q None offset DataOnly debug =
    Ok (mkRead (Some (fs_id s)) false false false false None false
         (Some (mkIntegrity (crc_ibm_3740 ([0xA1; 0xA1; 0xA1; 0xFB]%N ++ fs_data s) None) (crc_ibm_3740 ([0xA1; 0xA1; 0xA1; 0xFB]%N ++ fs_data s) None)))
         false false false false (4, 4 + length (fs_data s)) (data_field (fs_data s))).
Proof.
  intros Hs Hl. unfold bt_read_sector. rewrite Hs. cbn [negb]. unfold scan_sector_element. rewrite Hs. cbn [obind].
  rewrite (g_meta _ _ _ _ _ G). cbn [meta_new md_items]. rewrite find_track, Hl. cbn [andb].
  destruct (lookup_some _ _ _ _ _ Hl) as (Hn & _ & _).
  unfold oindex. rewrite (track_items_nth _ _ _ _ _ _ Hn). cbn [obind data_item i_elem i_start elem_range elem_size fst snd].
  destruct (slot_facts _ _ _ Hn) as ((Hlen & _) & Hf & Hb & Hd).
  unfold decode_element. cbn [data_item i_start i_elem].
  replace (n_size (fs_id s) + (4 + 2 + n_size (fs_id s) - (4 + 2 + n_size (fs_id s) - 2 - 4))) with (length (fs_data s) + 6) by (rewrite Hlen; clear; lia).
  rewrite (ready_read rnd (bt_data t) B _ (dam_at std o) _ (g_ready _ _ _ _ _ G)); [|clear - Hf; unfold idam_at, dam_at in *; lia|clear - Hb; lia].
  cbn [obind]. rewrite Hd. rewrite data_field_split, crc16_bytes_split, from_be16_be16. cbn [obind elem_range elem_size].
  rewrite <- Hlen. replace (4 + 2 + length (fs_data s) - 2) with (4 + length (fs_data s)) by (clear; lia). reflexivity.
Qed.
Lemma read_missing rnd q offset n scope debug : bt_schema t = true ->
  lookup q (off_of offset) (track_slots std gap3 ss) = None ->
  bt_read_sector rnd t q n offset scope debug =
    Ok (mkRead None true false false false None false None
         (flag_c q (off_of offset) (track_slots std gap3 ss)) (flag_ff q (off_of offset) (track_slots std gap3 ss))
         (flag_h q (off_of offset) (track_slots std gap3 ss)) false (0, 0) []).
Proof.
  intros Hs Hl. unfold bt_read_sector. rewrite Hs. cbn [negb]. unfold scan_sector_element. rewrite Hs. cbn [obind].
  rewrite (g_meta _ _ _ _ _ G). cbn [meta_new md_items]. rewrite find_track, Hl. reflexivity.
Qed.
End Track.
