(* Bs_write_proofs.v - writing a sector of an ARBITRARY bitstream track. *)
From Verif Require Import Base Base_lemmas Chs_model BitRing_model RangeCheck_model Mfm_model Crc_model Crc16_proofs Types_model
  System34_model BitStream_model Mfm_spec BitRing_proofs Mfm_proofs Stream_proofs System34_spec S34_ops_proofs S34_write_proofs.
From Coq Require Import Lia.

Lemma mod_shift_ne s k j L : k < L -> j < L -> k <> j -> (s + k) mod L <> (s + j) mod L.
Proof.
  intros Hk Hj Hne E. pose proof (Nat.div_mod (s + k) L ltac:(lia)) as D1. pose proof (Nat.div_mod (s + j) L ltac:(lia)) as D2.
  rewrite E in D1. assert (L * ((s + k) / L) - L * ((s + j) / L) = k - j /\ L * ((s + j) / L) - L * ((s + k) / L) = j - k) as [A B] by lia.
  rewrite <- Nat.mul_sub_distr_l in A, B.
  destruct ((s + k) / L - (s + j) / L) as [|x] eqn:X; destruct ((s + j) / L - (s + k) / L) as [|y] eqn:Y; nia.
Qed.
Lemma circ_write_circ l s a src k : k < length l -> a + length src <= length l ->
  circ (circ_write l (s + a) src) (s + k) = if (a <=? k) && (k <? a + length src) then nth (k - a) src false else circ l (s + k).
Proof.
  intros Hk Ha. destruct (Nat.leb_spec a k) as [H1|H1]; cbn [andb].
  - destruct (Nat.ltb_spec k (a + length src)) as [H2|H2].
    + replace (s + k) with (s + a + (k - a)) by lia. apply circ_write_inside; lia.
    + unfold circ. rewrite circ_write_length. apply circ_write_outside. intros j Hj. rewrite <- Nat.add_assoc. apply mod_shift_ne; lia.
  - unfold circ. rewrite circ_write_length. apply circ_write_outside. intros j Hj. rewrite <- Nat.add_assoc. apply mod_shift_ne; lia.
Qed.

Lemma any_phase m i : exists d, d <= 1 /\ in_phase m i 1 d.
Proof.
  destruct (clk m i) eqn:A.
  - exists 0. split; [lia|]. left. split; auto. intros k Hk. replace (i + 16 * k) with i by lia. auto.
  - destruct (clk m (i + 1)) eqn:B.
    + exists 1. split; [lia|]. right. split; auto. intros k Hk. replace (i + 16 * k) with i by lia. auto.
    + exists 0. split; [lia|]. left. split; auto. intros k Hk. replace (i + 16 * k) with i by lia. auto.
Qed.

(* which element find_sector_element points at *)
Lemma find_points_at q index : forall items ei wc bc wh mt k c ae de del dm b,
  find_elem_loop q index items ei wc bc wh mt = Found k c ae de del dm b ->
  exists i, ei <= k /\ nth_error items (k - ei) = Some i /\ b = i_last i /\ index <= i_start i /\
    (i_elem i = ElData c ae de del /\ dm = false \/
     i_elem i = ElHeader c ae dm /\ de = false /\ del = false /\ (ae || dm)%bool = true).
Proof.
  induction items as [|i t IH]; intros ei wc bc wh mt k c ae de del dm b; cbn [find_elem_loop]; [discriminate|].
  assert (G : forall wc bc wh mt, find_elem_loop q index t (S ei) wc bc wh mt = Found k c ae de del dm b ->
     exists i0, ei <= k /\ nth_error (i :: t) (k - ei) = Some i0 /\ b = i_last i0 /\ index <= i_start i0 /\
    (i_elem i0 = ElData c ae de del /\ dm = false \/ i_elem i0 = ElHeader c ae dm /\ de = false /\ del = false /\ (ae || dm)%bool = true)).
  { intros wc' bc' wh' mt' E. destruct (IH _ _ _ _ _ _ _ _ _ _ _ _ E) as (x & H1 & H2 & H3). exists x. split; [lia|]. split; [|exact H3].
    replace (k - ei) with (S (k - S ei)) by lia. exact H2. }
  destruct (Nat.ltb_spec (i_start i) index) as [Hi|Hi]; [apply G|]. destruct (i_elem i) as [mk|ch a d|ch a d dl] eqn:Ei; [apply G| |].
  - destruct (chsn_s ch =? q_s q)%N; [|apply G]. destruct (a || d) eqn:Ead; [|apply G].
    intros E. injection E as <- <- <- <- <- <- <-. exists i. rewrite Nat.sub_diag. split; [lia|]. split; [reflexivity|]. split; [reflexivity|]. split; [lia|].
    right. auto.
  - destruct mt; [|apply G]. intros E. injection E as <- <- <- <- <- <- <-. exists i. rewrite Nat.sub_diag. repeat split; auto.
Qed.
(* changing the data-error flag of the element found does not change which element is found *)
Lemma find_after_update q index : forall items ei wc bc wh mt k c ae de del b i de',
  find_elem_loop q index items ei wc bc wh mt = Found k c ae de del false b ->
  nth_error items (k - ei) = Some i -> i_elem i = ElData c ae de del ->
  find_elem_loop q index (upd items (k - ei) (set_elem i (ElData c ae de' del))) ei wc bc wh mt = Found k c ae de' del false b.
Proof.
  induction items as [|x t IH]; intros ei wc bc wh mt k c ae de del b i de' HF Hn Hi; [discriminate|].
  destruct (find_points_at _ _ _ _ _ _ _ _ _ _ _ _ _ _ _ HF) as (i0 & Hle & Hn0 & _). 
  destruct (k - ei) as [|j] eqn:Ej.
  - injection Hn as ->. cbn [upd find_elem_loop set_elem i_start i_elem i_last] in *. rewrite Hi in HF.
    destruct (i_start i <? index).
    { apply find_points_at in HF as (i1 & H1 & _). lia. }
    destruct mt; [|apply find_points_at in HF as (i1 & H1 & _); lia].
    injection HF; intros; subst. reflexivity.
  - cbn [nth_error] in Hn. assert (Hj : j = k - S ei) by lia.
    cbn [upd find_elem_loop] in *.
    assert (G : forall wc bc wh mt, find_elem_loop q index t (S ei) wc bc wh mt = Found k c ae de del false b ->
       find_elem_loop q index (upd t j (set_elem i (ElData c ae de' del))) (S ei) wc bc wh mt = Found k c ae de' del false b).
    { intros wc' bc' wh' mt' E. rewrite Hj in *. eapply IH; eauto. }
    destruct (i_start x <? index); [apply G; exact HF|]. destruct (i_elem x) as [mk|ch a d|ch a d dl]; [apply G; exact HF| |].
    + destruct (chsn_s ch =? q_s q)%N; [|apply G; exact HF]. destruct (a || d) eqn:Ead; [|apply G; exact HF].
      injection HF; intros; lia.
    + destruct mt; [|apply G; exact HF]. injection HF; intros; lia.
Qed.

(* encode_element on a data element *)
Definition crc_of_mark (deleted : bool) (d : list N) : list N :=
  be16 (crc_ibm_3740 ((if deleted then [0xA1; 0xA1; 0xA1; 0xFE] else [0xA1; 0xA1; 0xA1; 0xFB])%N ++ d) None).
Lemma mark_crc_app del d : be16 (crc_ibm_3740 d (Some (crc_ibm_3740 (if del : bool then IDAM_MARKER_BYTES else DAM_MARKER_BYTES) None))) = crc_of_mark del d.
Proof. unfold crc_of_mark. rewrite crc_app. destruct del; reflexivity. Qed.
Lemma encode_any m i c ae de del d : mfm_wf m -> i_elem i = ElData c ae de del ->
  exists d1 d2, d1 <= 1 /\ d2 <= 1 /\ in_phase m (i_start i + 64) 1 d1 /\ in_phase m (i_start i + 64 + 16 * length d) 1 d2 /\
    encode_element m i d = Ok (with_bits m (ring_with (m_bits m)
        (circ_write (circ_write (mfm_data m) (i_start i + 64 + d1) (mfm false (bits_of d)))
                    (i_start i + 64 + 16 * length d + d2) (mfm false (bits_of (crc_of_mark del d))))),
      set_elem i (ElData c ae false del), 2 * length d + 4).
Proof.
  intros W Hi. destruct (any_phase m (i_start i + 64)) as (d1 & H1 & P1). destruct (any_phase m (i_start i + 64 + 16 * length d)) as (d2 & H2 & P2).
  exists d1, d2. repeat (split; [assumption|]). unfold encode_element. rewrite Hi, mark_crc_app.
  replace (i_start i + 4 * MFM_BYTE_LEN) with (i_start i + 64) by (unfold MFM_BYTE_LEN; lia).
  rewrite (write_encoded_buf_spec m d (i_start i + 64) d1 W P1). cbn [obind].
  replace (i_start i + (4 + length d) * MFM_BYTE_LEN) with (i_start i + 64 + 16 * length d) by (unfold MFM_BYTE_LEN; lia).
  set (l1 := circ_write _ _ _). assert (El : length l1 = mfm_len m) by apply circ_write_length.
  rewrite (write_encoded_buf_spec _ (crc_of_mark del d) (i_start i + 64 + 16 * length d) d2).
  - cbn [obind]. f_equal.
  - apply mfm_wf_with_bits; auto.
  - destruct P2 as [[Hd Hp]|[Hd Hp]]; [left|right]; split; auto; intros k Hk; rewrite !clk_with_bits by auto; apply Hp; auto.
Qed.

(* A write never changes a cell outside the data and CRC of the element it found. *)
Lemma write_frame_any t q offset d scope wd debug t' r : mfm_wf (bt_data t) ->
  bt_write_sector t q offset d scope wd debug = Ok (t', r) ->
  mfm_len (bt_data t') = mfm_len (bt_data t) /\
  (mfm_data (bt_data t') = mfm_data (bt_data t) \/
   exists i c ae de del, In i (md_items (bt_meta t)) /\ i_elem i = ElData c ae de del /\ n_size c = length d /\ del = wd /\
     forall j, (forall k, 64 <= k <= 16 * (6 + length d) -> (i_start i + k) mod mfm_len (bt_data t) <> j) ->
       nth j (mfm_data (bt_data t')) false = nth j (mfm_data (bt_data t)) false).
Proof.
  intros W. unfold bt_write_sector, scan_sector_element. destruct (bt_schema t); cbn [negb obind]; [|discriminate].
  unfold find_sector_element. destruct (find_elem_loop _ _ _ _ _ _ _ _) as [k c ae de del dm b|wc bc wh] eqn:EF; cbn [obind].
  2: { intros E; injection E as <- _. auto. }
  destruct (find_points_at _ _ _ _ _ _ _ _ _ _ _ _ _ _ _ EF) as (i & _ & Hn & _ & _ & D). rewrite Nat.sub_0_r in Hn.
  destruct dm; [intros E; injection E as <- _; auto|].
  destruct (ae && negb debug); [intros E; injection E as <- _; auto|].
  destruct (Bool.eqb wd del) eqn:Ew; cbn [negb]; [|discriminate]. apply Bool.eqb_prop in Ew.
  destruct (Nat.eqb_spec (n_size c) (length d)) as [El|El]; cbn [negb]; [|discriminate].
  unfold oindex. rewrite Hn. cbn [obind]. destruct D as [[Hi _]|(Hi & _)].
  - destruct (encode_any (bt_data t) i c ae de del d W Hi) as (d1 & d2 & H1 & H2 & _ & _ & Ee). rewrite Ee. cbn [obind]. clear Ee.
    match goal with |- context [mkTrack _ ?x _ _] => remember x as m' eqn:Em end.
    intros E; injection E as <- _. cbn [bt_data]. rewrite Em. clear Em m'. split.
    { unfold mfm_len, ring_len. cbn [with_bits m_bits ring_with r_bits]. rewrite !circ_write_length. reflexivity. }
    right. exists i, c, ae, de, del. split; [eapply nth_error_In; eauto|]. repeat (split; [auto|]).
    intros j Hj. cbn [mfm_data with_bits m_bits ring_with r_bits]. 
    assert (L0 : length (mfm_data (bt_data t)) = mfm_len (bt_data t)) by reflexivity.
    rewrite circ_write_outside.
    + apply circ_write_outside. intros k' Hk. rewrite mfm_length, bits_of_length in Hk. rewrite L0.
      replace (i_start i + 64 + d1 + k') with (i_start i + (64 + d1 + k')) by lia. apply Hj. lia.
    + intros k' Hk. rewrite mfm_length, bits_of_length in Hk. rewrite circ_write_length, L0.
      change (length (crc_of_mark del d)) with 2 in Hk.
      replace (i_start i + 64 + 16 * length d + d2 + k') with (i_start i + (64 + 16 * length d + d2 + k')) by lia. apply Hj. lia.
  - unfold encode_element. rewrite Hi. cbn [obind]. intros E; injection E as <- _. auto.
Qed.

(* Writing back through a data element in phase: the element then decodes to mark, data, CRC. *)
Lemma write_element_decodes rnd m i c ae de del d ph mark :
  mfm_wf m -> i_elem i = ElData c ae de del -> 16 * (length d + 6) <= mfm_len m -> bytes_ok d = true ->
  in_phase m (i_start i) (length d + 6) ph -> no_weak m (i_start i + ph) (length d + 6) ->
  read_decoded_buf rnd m 4 (i_start i) = Ok mark ->
  exists m' n, encode_element m i d = Ok (m', set_elem i (ElData c ae false del), n) /\ mfm_wf m' /\
    read_decoded_buf rnd m' (length d + 6) (i_start i) = Ok (mark ++ d ++ crc_of_mark del d).
Proof.
  intros W Hi Hl Hb Hp Hw Hm. destruct (encode_any m i c ae de del d W Hi) as (d1 & d2 & H1 & H2 & P1 & P2 & Ee).
  set (s := i_start i) in *. set (L := mfm_data m) in *.
  assert (HL : length L = mfm_len m) by reflexivity.
  assert (E1 : d1 = ph).
  { destruct Hp as [[-> Hp]|[-> Hp]]; specialize (Hp 4 ltac:(lia)); change (16 * 4) with 64 in Hp;
    destruct P1 as [[-> P1]|[-> P1]]; specialize (P1 0 ltac:(lia)); rewrite Nat.mul_0_r, Nat.add_0_r in P1; auto; intuition congruence. }
  assert (E2 : d2 = ph).
  { destruct Hp as [[-> Hp]|[-> Hp]]; specialize (Hp (4 + length d) ltac:(lia));
    replace (s + 16 * (4 + length d)) with (s + 64 + 16 * length d) in Hp by lia;
    destruct P2 as [[-> P2]|[-> P2]]; specialize (P2 0 ltac:(lia)); rewrite Nat.mul_0_r, Nat.add_0_r in P2; auto; intuition congruence. }
  subst d1 d2. eexists. eexists. split; [exact Ee|].
  set (l1 := circ_write L (s + 64 + ph) (mfm false (bits_of d))). set (l2 := circ_write l1 _ _).
  assert (El1 : length l1 = length L) by apply circ_write_length.
  assert (El2 : length l2 = mfm_len m) by (unfold l2; rewrite circ_write_length, El1; reflexivity).
  assert (W' : mfm_wf (with_bits m (ring_with (m_bits m) l2))) by (apply mfm_wf_with_bits; auto). split; [exact W'|].
  set (K := crc_of_mark del d) in *. assert (HK : length K = 2) by reflexivity. assert (HKb : bytes_ok K = true) by (apply be16_ok, crc_lt_none; rewrite bytes_ok_app, Hb; destruct del; reflexivity).
  assert (Hcell : forall k, k < 16 * (length d + 6) -> circ l2 (s + ph + k) =
     if k <? 64 then circ L (s + ph + k) else if k <? 64 + 16 * length d then nth (k - 64) (mfm false (bits_of d)) false
     else nth (k - (64 + 16 * length d)) (mfm false (bits_of K)) false).
  { intros k Hk. unfold l2. replace (s + 64 + 16 * length d + ph) with (s + ph + (64 + 16 * length d)) by lia.
    rewrite circ_write_circ by (rewrite El1, ?mfm_length, ?bits_of_length; lia). rewrite mfm_length, bits_of_length, HK.
    unfold l1. replace (s + 64 + ph) with (s + ph + 64) by lia.
    rewrite circ_write_circ by (rewrite ?mfm_length, ?bits_of_length; lia). rewrite mfm_length, bits_of_length.
    replace (64 + 2 * (8 * length d)) with (64 + 16 * length d) by lia.
    clear - Hk.
    destruct (Nat.ltb_spec k 64); destruct (Nat.ltb_spec k (64 + 16 * length d)); destruct (Nat.leb_spec 64 k); destruct (Nat.leb_spec (64 + 16 * length d) k);
      destruct (Nat.ltb_spec k (64 + 16 * length d + 2 * (8 * 2))); cbn [andb]; try lia; try reflexivity. }
  rewrite (read_decoded_buf_spec rnd _ s (length d + 6) ph W').
  2: { destruct Hp as [[Hd Hp]|[Hd Hp]]; [left|right]; split; auto; intros k Hk; rewrite !clk_with_bits by auto; apply Hp; auto. }
  2: { intros k Hk. rewrite weak_at_with_bits. apply Hw. exact Hk. }
  cbn [mfm_data with_bits m_bits ring_with r_bits]. f_equal.
  assert (Hm4 : mark = bytes_of 4 (data_window L (s + ph) (8 * 4))).
  { rewrite (read_decoded_buf_spec rnd m s 4 ph W) in Hm.
    - injection Hm as <-. reflexivity.
    - eapply in_phase_le; [|exact Hp]. lia.
    - intros k Hk. apply Hw. lia. }
  assert (Hd1 : data_window l2 (s + ph) (8 * 4) = data_window L (s + ph) (8 * 4)).
  { unfold data_window. apply map_ext_in. intros k Hk. apply in_seq in Hk. rewrite <- !Nat.add_assoc. 
    replace (s + (ph + (1 + 2 * k))) with (s + ph + (1 + 2 * k)) by lia. rewrite Hcell by lia. destruct (Nat.ltb_spec (1 + 2 * k) 64); [reflexivity|lia]. }
  assert (Hd2 : data_window l2 (s + ph + 64) (8 * length d) = bits_of d).
  { apply list_eq_nth_error. intros k. unfold data_window. rewrite nth_error_map_seq.
    destruct (Nat.ltb_spec k (8 * length d)).
    - cbn [plus]. replace (s + ph + 64 + 1 + 2 * k) with (s + ph + (64 + (1 + 2 * k))) by lia. rewrite Hcell by lia.
      destruct (Nat.ltb_spec (64 + (1 + 2 * k)) 64); [lia|]. destruct (Nat.ltb_spec (64 + (1 + 2 * k)) (64 + 16 * length d)); [|lia].
      replace (64 + (1 + 2 * k) - 64) with (2 * k + 1) by lia. rewrite mfm_nth_data. symmetry. apply nth_error_nth'. rewrite bits_of_length. lia.
    - symmetry. apply nth_error_None. rewrite bits_of_length. lia. }
  assert (Hd3 : data_window l2 (s + ph + 64 + 16 * length d) (8 * 2) = bits_of K).
  { apply list_eq_nth_error. intros k. unfold data_window. rewrite nth_error_map_seq.
    destruct (Nat.ltb_spec k (8 * 2)).
    - cbn [plus]. replace (s + ph + 64 + 16 * length d + 1 + 2 * k) with (s + ph + (64 + 16 * length d + (1 + 2 * k))) by lia. rewrite Hcell by lia.
      destruct (Nat.ltb_spec (64 + 16 * length d + (1 + 2 * k)) 64); [lia|]. destruct (Nat.ltb_spec (64 + 16 * length d + (1 + 2 * k)) (64 + 16 * length d)); [lia|].
      replace (64 + 16 * length d + (1 + 2 * k) - (64 + 16 * length d)) with (2 * k + 1) by lia. rewrite mfm_nth_data. symmetry. apply nth_error_nth'.
      rewrite bits_of_length, HK. lia.
    - symmetry. apply nth_error_None. rewrite bits_of_length, HK. lia. }
  replace (8 * (length d + 6)) with (8 * 4 + (8 * length d + 8 * 2)) by lia.
  rewrite !data_window_app. replace (s + ph + 2 * (8 * 4)) with (s + ph + 64) by lia. replace (s + ph + 64 + 2 * (8 * length d)) with (s + ph + 64 + 16 * length d) by lia.
  rewrite Hd1, Hd2, Hd3.
  assert (Hb8 : forall n a b, length a = 8 * n -> forall k, bytes_of (n + k) (a ++ b) = bytes_of n a ++ bytes_of k b).
  { clear. induction n as [|n IH]; intros a b Ha k.
    - destruct a; [reflexivity|cbn [length] in Ha; lia].
    - cbn [plus bytes_of app]. rewrite firstn_app, skipn_app. replace (8 - length a) with 0 by lia. rewrite firstn_O, skipn_O, app_nil_r. f_equal.
      apply IH. rewrite skipn_length. lia. }
  replace (length d + 6) with (4 + (length d + 2)) by lia.
  rewrite Hb8 by (rewrite data_window_length; reflexivity). rewrite Hb8 by (rewrite bits_of_length; reflexivity). rewrite <- Hm4.
  rewrite bytes_of_bits_of by auto. do 2 f_equal. exact (bytes_of_bits_of K HKb).
Qed.
