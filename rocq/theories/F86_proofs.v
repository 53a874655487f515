(* F86_proofs.v - one track: what the writer stores, and what the loader makes of it. *)
From Verif Require Import Base Base_lemmas BitRing_proofs Mfm_spec Mfm_proofs Crc_proofs Crc32_proofs Marker_proofs
  Chs_model BitRing_model Mfm_model Types_model System34_model MetaSector_model BitStream_model DiskImage_model DiskImage_spec DiskImage_proofs
  Format_model Raw_model Bs_general_proofs Format2_proofs TreeMap_proofs Pce2_proofs Pce_spec Pce3_proofs Stream_proofs F86_model F86_spec.
From Coq Require Import Lia ZArith.

Lemma to_bytes_len' l : length l <= 8 * length (to_bytes l) /\ 8 * length (to_bytes l) <= length l + 7.
Proof. unfold to_bytes. destruct (to_bytes_props (length l) l (le_n _)) as (_ & _ & H & H2). auto. Qed.
Lemma to_bytes_ok l : bytes_ok (to_bytes l) = true.
Proof. unfold to_bytes. destruct (to_bytes_props (length l) l (le_n _)) as (_ & H & _). auto. Qed.

(* ---- new_cells for a given weak mask ---- *)
Lemma new_with_weak rnd ch data w n t : bt_new rnd ch data (Some w) (Some n) false = Ok t -> data <> [] ->
  bt_ch t = ch /\ r_bits (m_bits (bt_data t)) = firstn n (flat_map byte_bits data) /\ r_bits (m_weak (bt_data t)) = flat_map byte_bits w.
Proof.
  unfold bt_new. destruct (negb _); [discriminate|]. cbn [option_map]. intros E Hd.
  destruct data as [|x y]; [congruence|]. cbn [obind] in E.
  destruct (mfm_new _ _ _) as [m| |] eqn:Em; cbn [obind] in E; try discriminate.
  assert (Hm : r_bits (m_bits m) = firstn n (flat_map byte_bits (x :: y)) /\ r_bits (m_weak m) = flat_map byte_bits w).
  { unfold mfm_new in Em. destruct (_ <? _); [discriminate|]. injection Em as <-. split; reflexivity. }
  clear Em. destruct (scan_markers m) as [L| |]; cbn [obind] in E; try discriminate.
  destruct L as [|z L]; [injection E as <-; cbn [bt_ch bt_data]; tauto|].
  destruct (create_clock_map _ _) as [cm| |]; cbn [obind] in E; try discriminate.
  destruct (scan_metadata _ _ _) as [[items m']| |] eqn:Es; cbn [obind] in E; try discriminate.
  injection E as <-. cbn [bt_ch bt_data]. split; [reflexivity|].
  assert (H : moved (set_clock_bits m cm) m') by (eapply scan_metadata_moved; eauto). destruct H as [c Hc].
  destruct (data_ranges _); rewrite Hc; exact Hm.
Qed.
Lemma new_any_ch rnd ch ch' data w ct dw t : bt_new rnd ch data w ct dw = Ok t ->
  bt_new rnd ch' data w ct dw = Ok (mkTrack ch' (bt_data t) (bt_meta t) (bt_schema t)).
Proof.
  unfold bt_new. destruct (match w with Some _ => _ | None => _ end); [discriminate|].
  match goal with |- obind ?e _ = _ -> _ => destruct e as [bits| |] end; cbn [obind]; try discriminate.
  destruct (mfm_new _ _ _) as [m| |]; cbn [obind]; try discriminate.
  match goal with |- obind ?e _ = _ -> _ => destruct e as [m2| |] end; cbn [obind]; try discriminate.
  destruct (scan_markers m2) as [[|x L]| |]; cbn [obind]; try discriminate.
  - intros E; injection E as <-. reflexivity.
  - destruct (create_clock_map _ _); cbn [obind]; try discriminate.
    destruct (scan_metadata _ _ _) as [[items m']| |]; cbn [obind]; try discriminate.
    intros E; injection E as <-. reflexivity.
Qed.

(* ---- bytes ---- *)
Lemma zip_bytes_length f : forall a b, length (zip_bytes f a b) = length a.
Proof. induction a as [|x a IH]; intros [|y b]; cbn [zip_bytes length]; auto. Qed.
Lemma zip_bytes_nth f d1 d2 d : forall a b i, length a = length b -> i < length a -> nth i (zip_bytes f a b) d = f (nth i a d1) (nth i b d2).
Proof.
  induction a as [|x a IH]; intros [|y b] i L H; cbn [length] in *; try lia.
  destruct i as [|i]; [reflexivity|]. cbn [zip_bytes nth]. apply IH; lia.
Qed.
Lemma zip_bytes_app f : forall a b a' b', length a = length b -> zip_bytes f (a ++ a') (b ++ b') = zip_bytes f a b ++ zip_bytes f a' b'.
Proof.
  induction a as [|x a IH]; intros [|y b] a' b' L; cbn [length] in *; try lia; [reflexivity|].
  cbn [app zip_bytes]. f_equal. apply IH. lia.
Qed.
Lemma nth_ext' {A} (l l' : list A) d d' : length l = length l' -> (forall i, i < length l -> nth i l d = nth i l' d') -> l = l'.
Proof. intros H E. apply nth_ext with (d := d) (d' := d'); auto. Qed.
Lemma nth_map_seq {A} (f : nat -> A) n i d : i < n -> nth i (map f (seq 0 n)) d = f i.
Proof.
  intros H. rewrite nth_indep with (d' := f (0)) by (rewrite map_length, seq_length; exact H).
  rewrite map_nth, seq_nth by exact H. reflexivity.
Qed.
Lemma file_cells_length hole t : length (file_cells hole t) = octets t.
Proof. unfold file_cells. rewrite map_length, seq_length. reflexivity. Qed.
Lemma file_surface_length t : length (file_surface t) = octets t.
Proof. unfold file_surface. rewrite map_length, seq_length. reflexivity. Qed.
Definition op (hole : bool) : N -> N -> N := if hole then fun b w => N.ldiff b w else fun b w => N.lor b w.
Lemma zip_is_file_cells hole t : length (to_bytes (weak_cells t)) = octets t ->
  zip_bytes (op hole) (to_bytes (cells t)) (to_bytes (weak_cells t)) = file_cells hole t.
Proof.
  intros H. apply nth_ext' with 0%N 0%N.
  - rewrite zip_bytes_length, file_cells_length. reflexivity.
  - intros i Hi. rewrite zip_bytes_length in Hi. rewrite zip_bytes_nth with (d1 := 0%N) (d2 := 0%N) by (auto; unfold octets in H; congruence).
    unfold file_cells. rewrite nth_map_seq by exact Hi. destruct hole; reflexivity.
Qed.
(* the entry of a track *)
Definition odd_pad (t : BitTrack) : list N := if Nat.odd (octets t) then [0%N] else [].
Definition entry_of (fl : N) (hole : bool) (t : BitTrack) : list N :=
  le16 fl ++ le32 (N.of_nat (length (cells t))) ++ le32 0 ++
  (file_cells hole t ++ odd_pad t) ++ (to_bytes (weak_cells t) ++ odd_pad t).
Lemma f86_entry_spec fl hole t : length (to_bytes (weak_cells t)) = octets t -> (N.of_nat (length (cells t)) <= 8 * 0x100000)%N ->
  f86_entry fl true hole t = Ok (entry_of fl hole t).
Proof.
  intros Hw Hn. unfold f86_entry. change (mfm_data (bt_data t)) with (cells t). change (r_bits (m_weak (bt_data t))) with (weak_cells t).
  fold (octets t). rewrite Hw, Nat.eqb_refl. cbn [andb negb].
  assert (E32 : as_u32 (N.of_nat (length (cells t))) = N.of_nat (length (cells t))).
  { unfold as_u32. apply N.mod_small. change (2 ^ 32)%N with 4294967296%N. clear - Hn. lia. }
  rewrite E32. unfold entry_of, odd_pad, pad_even. fold (octets t). f_equal. do 3 f_equal.
  rewrite <- (zip_is_file_cells hole t Hw). fold (op hole). destruct (Nat.odd (octets t)); [|rewrite !app_nil_r; reflexivity].
  rewrite zip_bytes_app by (unfold octets in Hw; congruence). f_equal. f_equal. destruct hole; reflexivity.
Qed.
Lemma odd_pad_length t : length (odd_pad t) = octets t mod 2.
Proof.
  unfold odd_pad. rewrite <- Nat.bit0_mod. change (Nat.testbit (octets t) 0) with (Nat.odd (octets t)).
  destruct (Nat.odd (octets t)); reflexivity.
Qed.
Lemma entry_length fl hole t : length (to_bytes (weak_cells t)) = octets t ->
  length (entry_of fl hole t) = 10 + 2 * (octets t + octets t mod 2).
Proof.
  intros H. unfold entry_of. rewrite !app_length, odd_pad_length, file_cells_length, H. cbn [length le16 le32]. lia.
Qed.

(* ---- the cells of the loaded track ---- *)
Lemma nth_flat_bits : forall (l : list N) i, i < 8 * length l -> nth i (flat_map byte_bits l) false = N.testbit (nth (i / 8) l 0%N) (N.of_nat (7 - i mod 8)).
Proof.
  induction l as [|x l IH]; intros i H; [cbn in H; lia|]. cbn [flat_map].
  assert (L8 : length (byte_bits x) = 8) by reflexivity.
  destruct (Nat.lt_ge_cases i 8) as [Hi|Hi].
  - rewrite app_nth1 by lia. rewrite Nat.div_small, Nat.mod_small by exact Hi. cbn [nth].
    unfold byte_bits. do 8 (destruct i as [|i]; [reflexivity|]). lia.
  - rewrite app_nth2 by lia. rewrite L8, IH by (cbn [length] in H; lia).
    assert (E : i = (i - 8) + 1 * 8) by lia. assert (Ed : i / 8 = S ((i - 8) / 8)) by (rewrite E at 1; rewrite Nat.div_add by lia; lia).
    assert (Em : i mod 8 = (i - 8) mod 8) by (rewrite E at 1; rewrite Nat.mod_add by lia; reflexivity).
    rewrite Ed, Em. reflexivity.
Qed.
Lemma to_bytes_bits : forall f l, length l <= f -> exists k, flat_map byte_bits (to_bytes_loop f l) = l ++ repeat false k.
Proof.
  induction f as [|f IH]; intros l H; [destruct l; [exists 0; reflexivity|cbn in H; lia]|].
  destruct l as [|b l0] eqn:El; [exists 0; reflexivity|]. rewrite <- El in *.
  assert (Eu : to_bytes_loop (S f) l = bits_val (firstn 8 (l ++ repeat false 8)) :: to_bytes_loop f (skipn 8 l)) by (rewrite El; reflexivity).
  assert (Hpos : 0 < length l) by (rewrite El; cbn; lia). clear El b l0.
  destruct (IH (skipn 8 l)) as [k Hk]; [rewrite skipn_length; lia|].
  rewrite Eu. cbn [flat_map]. rewrite byte_bits_bits_val by (rewrite firstn_length, app_length, repeat_length; lia). rewrite Hk.
  destruct (Nat.lt_ge_cases (length l) 8) as [H8|H8].
  - exists (8 - length l + k). rewrite skipn_all2 by lia. cbn [app]. rewrite firstn_app, firstn_all2 by lia.
    rewrite <- app_assoc. f_equal.
    transitivity (repeat false (8 - length l) ++ repeat false k); [|symmetry; apply repeat_app]. f_equal.
    transitivity (firstn (8 - length l) (repeat false (8 - length l) ++ repeat false (length l))).
    { rewrite <- repeat_app. f_equal. f_equal. lia. }
    rewrite firstn_app, repeat_length, Nat.sub_diag, firstn_O, app_nil_r. apply firstn_all2. rewrite repeat_length. lia.
  - exists k. rewrite firstn_app. replace (8 - length l) with 0 by lia. rewrite firstn_O, app_nil_r, app_assoc, firstn_skipn. reflexivity.
Qed.
Lemma byte_of_cells l i : N.testbit (nth (i / 8) (to_bytes l) 0%N) (N.of_nat (7 - i mod 8)) = nth i l false.
Proof.
  pose proof (to_bytes_len' l) as [L _]. destruct (Nat.lt_ge_cases i (8 * length (to_bytes l))) as [H|H].
  - rewrite <- nth_flat_bits by exact H. destruct (to_bytes_bits (length l) l (le_n _)) as [k E].
    unfold to_bytes. rewrite E. destruct (Nat.lt_ge_cases i (length l)) as [Hi|Hi].
    + apply app_nth1. exact Hi.
    + rewrite app_nth2 by exact Hi. rewrite (nth_overflow l) by exact Hi.
      destruct (Nat.lt_ge_cases (i - length l) k); [apply nth_repeat|apply nth_overflow; rewrite repeat_length; lia].
  - rewrite (nth_overflow l) by lia. rewrite nth_overflow; [apply N.bits_0|]. apply Nat.div_le_lower_bound; lia.
Qed.
Lemma file_cell_bit hole t i : i < length (cells t) ->
  N.testbit (nth (i / 8) (file_cells hole t) 0%N) (N.of_nat (7 - i mod 8)) =
  (if hole then cell t i && negb (weak_cell t i) else cell t i || weak_cell t i).
Proof.
  intros H. pose proof (to_bytes_len' (cells t)) as [L _]. fold (octets t) in L.
  assert (Hj : i / 8 < octets t) by (apply Nat.div_lt_upper_bound; lia).
  unfold file_cells. rewrite nth_map_seq by exact Hj. unfold cell, weak_cell. rewrite <- !byte_of_cells.
  destruct hole; [apply N.ldiff_spec|apply N.lor_spec].
Qed.
Lemma file_surface_bit t i : i < length (cells t) ->
  N.testbit (nth (i / 8) (file_surface t) 0%N) (N.of_nat (7 - i mod 8)) = surface_cell t i.
Proof.
  intros H. pose proof (to_bytes_len' (cells t)) as [L _]. fold (octets t) in L.
  assert (Hj : i / 8 < octets t) by (apply Nat.div_lt_upper_bound; lia).
  unfold file_surface, surface_cell. rewrite nth_map_seq by exact Hj. destruct (Nat.even (octets t)); [apply byte_of_cells|].
  unfold weak_cell. destruct (Nat.leb_spec 8 i) as [H8|H8].
  - assert (E : i = (i - 8) + 1 * 8) by lia.
    assert (Ed : i / 8 = S ((i - 8) / 8)) by (rewrite E at 1; rewrite Nat.div_add by lia; lia).
    assert (Em : i mod 8 = (i - 8) mod 8) by (rewrite E at 1; rewrite Nat.mod_add by lia; reflexivity).
    rewrite Ed, Em. cbn [andb]. apply byte_of_cells.
  - rewrite Nat.div_small by exact H8. cbn [andb]. apply N.bits_0.
Qed.
Definition weak_bytes (hole : bool) (t : BitTrack) : list N :=
  map (fun j => N.land (nth j (file_surface t) 0%N) (nth j (file_cells hole t) 0%N)) (seq 0 (octets t)).
Lemma weak_byte_bit hole t i : i < length (cells t) ->
  N.testbit (nth (i / 8) (weak_bytes hole t) 0%N) (N.of_nat (7 - i mod 8)) =
  surface_cell t i && (if hole then cell t i && negb (weak_cell t i) else cell t i || weak_cell t i).
Proof.
  intros H. pose proof (to_bytes_len' (cells t)) as [L _]. fold (octets t) in L.
  assert (Hj : i / 8 < octets t) by (apply Nat.div_lt_upper_bound; lia).
  unfold weak_bytes. rewrite nth_map_seq by exact Hj. rewrite N.land_spec, file_surface_bit, file_cell_bit by exact H. reflexivity.
Qed.
Lemma forallb_zero l : forallb (N.eqb 0) l = true -> forall j, nth j l 0%N = 0%N.
Proof.
  intros H j. rewrite forallb_forall in H. destruct (Nat.lt_ge_cases j (length l)) as [Hj|Hj]; [|apply nth_overflow; exact Hj].
  symmetry. apply N.eqb_eq. apply H, nth_In, Hj.
Qed.
Lemma loaded_track rnd hole t ch : cells t <> [] -> f86_loadable rnd hole t ->
  exists t', bt_new (rnd_bit rnd) ch (file_cells hole t) (file_weak hole t) (Some (length (cells t))) false = Ok t' /\
    bt_ch t' = ch /\ kept hole t t'.
Proof.
  intros Hne [t1 H]. apply new_any_ch with (ch' := ch) in H. remember (mkTrack ch (bt_data t1) (bt_meta t1) (bt_schema t1)) as t' eqn:Et'. clear Et' t1.
  exists t'. split; [exact H|].
  assert (Hpos : 0 < length (cells t)) by (destruct (cells t); [congruence|cbn; lia]).
  pose proof (to_bytes_len' (cells t)) as [L1 L2]. fold (octets t) in L1, L2.
  assert (Hd : file_cells hole t <> []) by (intros Z; pose proof (file_cells_length hole t) as Z2; rewrite Z in Z2; cbn in Z2; lia).
  assert (Ecells : firstn (length (cells t)) (flat_map byte_bits (file_cells hole t)) =
    map (fun i => if hole then cell t i && negb (weak_cell t i) else cell t i || weak_cell t i) (seq 0 (length (cells t)))).
  { assert (L8 : length (flat_map byte_bits (file_cells hole t)) = 8 * octets t).
    { rewrite flat_map_const_length with (k := 8) by reflexivity. rewrite file_cells_length. lia. }
    apply nth_ext' with false false.
    - rewrite firstn_length, map_length, seq_length, L8. lia.
    - intros i Hi. rewrite firstn_length, L8 in Hi. assert (Hi' : i < length (cells t)) by lia.
      rewrite nth_map_seq by exact Hi'. rewrite nth_firstn by exact Hi'.
      rewrite nth_flat_bits by (rewrite file_cells_length; lia). apply file_cell_bit. exact Hi'. }
  unfold kept. unfold file_weak in H. cbv zeta in H. fold (weak_bytes hole t) in H.
  destruct (forallb (N.eqb 0) (weak_bytes hole t)) eqn:Ew.
  - destruct (new_cells _ _ _ _ _ H) as (m & bits & Em & Hb & _ & Ebits & Eweak & _ & Hch & _). rewrite (Hb Hd) in Em.
    unfold mfm_new in Em. rewrite Ecells in Em. destruct (_ <? _) in Em; [discriminate|].
    split; [exact Hch|]. unfold cells at 1, mfm_data. rewrite Ebits. unfold weak_cell at 3. unfold weak_cells. rewrite Eweak.
    injection Em as <-. cbn [m_bits m_weak ring_from r_bits]. split; [reflexivity|]. intros i Hi.
    rewrite nth_repeat. unfold cell at 1, cells, mfm_data. rewrite Ebits. cbn [m_bits ring_from r_bits]. rewrite nth_map_seq by exact Hi.
    rewrite <- weak_byte_bit by exact Hi. rewrite forallb_zero by exact Ew. symmetry. apply N.bits_0.
  - destruct (new_with_weak _ _ _ _ _ _ H Hd) as (Hch & Ebits & Eweak). split; [exact Hch|].
    assert (Ec : cells t' = map (fun i => if hole then cell t i && negb (weak_cell t i) else cell t i || weak_cell t i) (seq 0 (length (cells t))))
      by (rewrite <- Ecells; exact Ebits).
    split; [exact Ec|]. intros i Hi. unfold weak_cell at 1, weak_cells. rewrite Eweak. unfold cell at 1. rewrite Ec, nth_map_seq by exact Hi.
    rewrite <- weak_byte_bit by exact Hi. apply nth_flat_bits. unfold weak_bytes. rewrite map_length, seq_length. lia.
Qed.
