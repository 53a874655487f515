(* Hfe_proofs.v - the HFE loader. *)
From Verif Require Import Base Base_lemmas BitRing_proofs Mfm_spec Bs_general_proofs
  Chs_model BitRing_model Mfm_model Types_model System34_model MetaSector_model BitStream_model DiskImage_model DiskImage_spec DiskImage_proofs
  Format_model Raw_model Format2_proofs TreeMap_proofs Pce_spec Pce3_proofs F86_model F86_spec F86_proofs F86b_proofs Layout_spec Layout_proofs Tc_proofs
  Hxc_model Hxc_spec Hxc_proofs.
From Coq Require Import Lia.

(* ---- tracks in the order (0,0) (0,1) (1,0) ... ---- *)
Definition no_track : BitTrack := mkTrack (mkCh 0 0) (mkMfm (ring_from []) (ring_from []) (ring_from []) false (ring_from []) 0 0 [] []) meta_default false.
Lemma interleaved rnd k c (job : nat -> AddJob) : k = 1 \/ k = 2 ->
  (forall i, i < c * k -> ch_h (aj_ch (job i)) = N.of_nat (i mod k)) -> (forall i, i < c * k -> exists t, job_track rnd (job i) = Ok t) ->
  exists d1 s', add_jobs rnd (map job (seq 0 (c * k))) di_default = Ok d1 /\ wf d1 s' /\
    length (fst s') = c /\ length (snd s') = (if k =? 2 then c else 0) /\
    forall i, i < c * k -> exists t, job_track rnd (job i) = Ok t /\ nth_error (side s' (N.of_nat (i mod k))) (i / k) = Some (TBit t).
Proof.
  intros Hk Hh Ht. set (n := c * k) in *.
  set (track i := match job_track rnd (job i) with Ok t => t | _ => no_track end).
  assert (HT : forall i, i < n -> job_track rnd (job i) = Ok (track i)) by (intros i Hi; unfold track; destruct (Ht i Hi) as [t ->]; reflexivity).
  clearbody track. set (ts := map track (seq 0 n)).
  assert (Hmod : forall i, i mod k < k) by (intros i; apply Nat.mod_upper_bound; destruct Hk; lia).
  assert (F : Forall2 (fun j t => (ch_h (aj_ch j) < 2)%N /\ job_track rnd j = Ok t) (map job (seq 0 n)) ts).
  { unfold ts. assert (Hbd : forall i, In i (seq 0 n) -> i < n) by (intros i Hi; apply in_seq in Hi; lia). revert Hbd. generalize (seq 0 n). induction l as [|i l IH]; intros Hbd; constructor.
    - split; [|apply HT, Hbd; left; reflexivity]. rewrite Hh by (apply Hbd; left; reflexivity). specialize (Hmod i). destruct Hk; lia.
    - apply IH. intros; apply Hbd; right; assumption. }
  destruct (add_jobs_ok rnd _ _ di_default ([], []) F (empty_wf di_default eq_refl eq_refl eq_refl) ltac:(split; [reflexivity|left; reflexivity])) as (d1 & E & W & _ & _ & _).
  exists d1, (on_head 0 ts, on_head 1 ts). split; [exact E|]. split; [exact W|]. cbn [fst snd].
  assert (Hts2 : forall i, i < n -> nth_error ts i = Some (track i)).
  { intros i Hi. unfold ts. rewrite nth_error_map, (nth_error_nth' _ 0) by (rewrite seq_length; exact Hi). rewrite seq_nth by exact Hi. reflexivity. }
  assert (Lts : length ts = n) by (unfold ts; rewrite map_length, seq_length; reflexivity).
  assert (P1 : forall i t, nth_error ts i = Some t -> ch_h (bt_ch t) = N.of_nat (i mod k)).
  { intros i t H. assert (Hi : i < n) by (rewrite <- Lts; apply nth_error_Some; congruence). rewrite (Hts2 i Hi) in H. injection H as <-.
    rewrite <- Hh by exact Hi. f_equal. specialize (HT i Hi). unfold job_track in HT. apply bt_new_ch in HT. exact HT. }
  clearbody ts. destruct Hk as [-> | ->].
  - destruct (on_head_single ts) as [A B].
    { apply Forall_forall. intros t Hin. apply In_nth_error in Hin as [i Hi]. rewrite (P1 i t Hi), Nat.mod_1_r. reflexivity. }
    rewrite A, B, map_length, Lts. unfold n. rewrite Nat.mul_1_r. split; [reflexivity|]. split; [reflexivity|]. intros i Hi. exists (track i).
    rewrite Nat.mod_1_r, Nat.div_1_r. cbn [N.of_nat side fst]. assert (Hi' : i < n) by (unfold n; lia). rewrite nth_error_map, (Hts2 i Hi'). split; [apply HT; exact Hi'|reflexivity].
  - destruct (on_head_two_length c ts ltac:(unfold n in Lts; lia) P1) as [A B]. rewrite A, B.
    split; [reflexivity|]. split; [reflexivity|]. intros i Hi. exists (track i). split; [apply HT; exact Hi|].
    destruct (on_head_two _ ts 0 eq_refl eq_refl P1 (i / 2)) as [Q0 Q1].
    assert (D : i mod 2 = 0 /\ 2 * (i / 2) = i \/ i mod 2 = 1 /\ 2 * (i / 2) + 1 = i) by dlia.
    destruct D as [[D1 D2]|[D1 D2]]; rewrite D1; [change (N.of_nat 0) with 0%N|change (N.of_nat 1) with 1%N]; cbn [side fst snd]; rewrite ?Q0, ?Q1, D2, (Hts2 i Hi); reflexivity.
Qed.

(* ---- fields ---- *)
Lemma reverse_spec x : (x < 256)%N -> byte_bits (reverse_bits x) = rev (byte_bits x).
Proof.
  intros H. assert (E : forallb (fun x => if list_eq_dec Bool.bool_dec (byte_bits (reverse_bits x)) (rev (byte_bits x)) then true else false) (map N.of_nat (seq 0 256)) = true) by (vm_compute; reflexivity).
  rewrite forallb_forall in E. specialize (E x). destruct (list_eq_dec _ _ _) as [Q|Q]; [exact Q|]. discriminate E. apply in_map_iff. exists (N.to_nat x). split; [apply N2Nat.id|apply in_seq; lia].
Qed.
Lemma hfe_header_of file : hfe_header file =
  if 26 <=? length file
  then if forallb (fun p => fst p =? snd p)%N (combine (map (byte_at file) (seq 0 8)) [0x48; 0x58; 0x43; 0x50; 0x49; 0x43; 0x46; 0x45]%N)
       then Ok (mkHfe (byte_at file 9) (byte_at file 10) (le16_at file 18)) else Err UnknownFormat
  else Err IoError.
Proof.
  unfold hfe_header. change file with (skipn 0 file) at 1. rewrite exact_pos by lia. change (0 + 9) with 9. destruct (Nat.leb_spec 26 (length file)) as [A|A].
  - rewrite step_ok by inside. rewrite u8_pos, step_ok by inside. change (9 + 1) with 10. rewrite u8_pos, step_ok by inside. change (10 + 1) with 11.
    rewrite exact_pos, step_ok by (try inside; lia). change (11 + 7) with 18. rewrite le16_pos, step_ok by inside. change (18 + 2) with 20.
    rewrite exact_pos, step_ok by (try inside; lia).
    assert (E : firstn 8 (bytes_at file 0 9) = map (byte_at file) (seq 0 8)) by (unfold bytes_at; rewrite firstn_firstn; change (Nat.min 8 9) with 8; apply (bytes_at_map file 0 8); lia).
    rewrite E. reflexivity.
  - destruct (Nat.leb_spec 9 (length file)) as [B1|B1]; cbn [obind]; [|reflexivity]. rewrite u8_pos. change (9 + 1) with 10.
    destruct (Nat.leb_spec 10 (length file)) as [B2|B2]; cbn [obind]; [|reflexivity]. rewrite u8_pos. change (10 + 1) with 11.
    destruct (Nat.leb_spec 11 (length file)) as [B3|B3]; cbn [obind]; [|reflexivity]. rewrite exact_pos by lia. change (11 + 7) with 18.
    destruct (Nat.leb_spec 18 (length file)) as [B4|B4]; cbn [obind]; [|reflexivity]. rewrite le16_pos. change (18 + 2) with 20.
    destruct (Nat.leb_spec 20 (length file)) as [B5|B5]; cbn [obind]; [|reflexivity]. rewrite exact_pos by lia. change (20 + 6) with 26.
    destruct (Nat.leb_spec 26 (length file)) as [B6|B6]; cbn [obind]; [lia|reflexivity].
Qed.
Definition index_at (file : list N) (i : nat) : N * N := (le16_at file (hfe_entry file i), le16_at file (hfe_entry file i + 2)).
Lemma hfe_index_pos l : forall n p, let ok := forall i, i < n -> p + 4 * i + 4 <= length l /\ N.odd (le16_at l (p + 4 * i + 2)) = false in
  (ok -> hfe_index n (skipn p l) = Ok (map (fun i => (le16_at l (p + 4 * i), le16_at l (p + 4 * i + 2))) (seq 0 n))) /\
  (forall x, hfe_index n (skipn p l) = Ok x -> ok) /\ hfe_index n (skipn p l) <> Panic.
Proof.
  induction n as [|n IH]; intros p; cbv zeta; [split; [reflexivity|split; [intros; lia|discriminate]]|]. cbn [hfe_index]. rewrite !le16_pos.
  destruct (IH (p + 4)) as (A & B & C). clear IH. cbv zeta in *. split; [|split].
  - intros Ok. destruct (Ok 0 ltac:(lia)) as [O1 O2]. rewrite Nat.mul_0_r, Nat.add_0_r in O1, O2. rewrite step_ok by inside. rewrite le16_pos, step_ok by inside. rewrite O2.
    rewrite <- Nat.add_assoc. change (2 + 2) with 4. rewrite A.
    + cbn [obind seq map]. rewrite Nat.mul_0_r, Nat.add_0_r. f_equal. f_equal. rewrite <- seq_shift, map_map. apply map_ext. intros i.
      replace (p + 4 * S i) with (p + 4 + 4 * i) by lia. reflexivity.
    + intros i Hi. destruct (Ok (S i) ltac:(lia)) as [Q1 Q2]. replace (p + 4 * S i) with (p + 4 + 4 * i) in Q1, Q2 by lia. split; assumption.
  - intros x E. destruct (Nat.leb_spec (p + 2) (length l)) as [L1|L1]; cbn [obind] in E; [|discriminate]. rewrite le16_pos in E.
    destruct (Nat.leb_spec (p + 2 + 2) (length l)) as [L2|L2]; cbn [obind] in E; [|discriminate]. destruct (N.odd (le16_at l (p + 2))) eqn:O; [discriminate|].
    rewrite <- Nat.add_assoc in E. change (2 + 2) with 4 in E. destruct (hfe_index n (skipn (p + 4) l)) as [y| |] eqn:Ey; cbn [obind] in E; try discriminate.
    specialize (B y eq_refl). intros i Hi. destruct i as [|i]; [rewrite Nat.mul_0_r, Nat.add_0_r; split; [lia|exact O]|].
    replace (p + 4 * S i) with (p + 4 + 4 * i) by lia. apply B. lia.
  - destruct (p + 2 <=? length l); cbn [obind]; [|discriminate]. rewrite le16_pos. destruct (p + 2 + 2 <=? length l); cbn [obind]; [|discriminate].
    destruct (N.odd _); [discriminate|]. rewrite <- Nat.add_assoc. change (2 + 2) with 4. destruct (hfe_index n (skipn (p + 4) l)); cbn [obind]; [discriminate|discriminate|congruence].
Qed.

(* ---- blocks ---- *)
Definition byte0 (l : list N) (p j : nat) : N := reverse_bits (byte_at l (p + 512 * (j / 256) + j mod 256)).
Definition byte1 (l : list N) (p rem j : nat) : N := reverse_bits (byte_at l (p + 512 * (j / 256) + (if j / 256 <? rem / 512 then 256 else (rem mod 512) / 2) + j mod 256)).
Lemma div_small_add j : (256 + j) / 256 = S (j / 256) /\ (256 + j) mod 256 = j mod 256.
Proof. replace (256 + j) with (j + 1 * 256) by lia. rewrite Nat.div_add, Nat.mod_add by discriminate. split; [lia|reflexivity]. Qed.
Lemma low_index j : j < 256 -> j / 256 = 0 /\ j mod 256 = j. Proof. intros H. split; [apply Nat.div_small|apply Nat.mod_small]; exact H. Qed.
Lemma seq_by k q : seq k q = map (fun j => k + j) (seq 0 q).
Proof.
  apply list_eq_nth_error. intros i. rewrite nth_error_map. destruct (Nat.lt_ge_cases i q) as [H|H].
  - rewrite !(nth_error_nth' _ 0) by (rewrite seq_length; exact H). rewrite !seq_nth by exact H. reflexivity.
  - rewrite !(proj2 (nth_error_None _ _)) by (rewrite seq_length; exact H). reflexivity.
Qed.
Lemma blocks_ok l : forall fuel rem p a b, Nat.even rem = true -> rem / 512 < fuel -> p + rem <= length l ->
  hfe_blocks fuel rem (skipn p l) a b = Ok (a ++ map (byte0 l p) (seq 0 (rem / 2)), b ++ map (byte1 l p rem) (seq 0 (rem / 2))).
Proof.
  induction fuel as [|fuel IH]; intros rem p a b Ev Hf Hl; [lia|]. cbn [hfe_blocks].
  destruct (Nat.eqb_spec rem 0) as [->|Hz]; [change (0 / 2) with 0; cbn [seq map]; rewrite !app_nil_r; reflexivity|].
  apply Nat.even_spec in Ev as [h Eh]. assert (Eh2 : rem / 2 = h) by (rewrite Eh, Nat.mul_comm; apply Nat.div_mul; discriminate).
  destruct (Nat.ltb_spec rem 512) as [A|A].
  - rewrite Eh2. rewrite exact_pos, step_ok by (try (apply Nat.leb_le; clear - Eh Hl; lia); clear - Eh Hz; lia).
    rewrite exact_pos, step_ok by (try (apply Nat.leb_le; clear - Eh Hl; lia); clear - Eh Hz; lia).
    rewrite !bytes_at_map by (clear - Eh Hl; lia). rewrite !map_map.
    assert (Hm : (rem mod 512) / 2 = h) by (rewrite Nat.mod_small by exact A; exact Eh2).
    assert (Hd : rem / 512 = 0) by (apply Nat.div_small; exact A).
    f_equal. f_equal; f_equal; apply map_ext_in; intros j Hj; apply in_seq in Hj; assert (Hj2 : j < 256) by (clear - Eh A Hj; lia);
      destruct (low_index j Hj2) as [J1 J2]; unfold byte0, byte1; rewrite J1, J2.
    + rewrite Nat.mul_0_r, Nat.add_0_r. reflexivity.
    + rewrite Nat.mul_0_r, Nat.add_0_r, Hd, Hm. change (0 <? 0) with false. cbv iota. reflexivity.
  - rewrite exact_pos, step_ok by (try (apply Nat.leb_le; clear - A Hl; lia); lia). rewrite exact_pos, step_ok by (try (apply Nat.leb_le; clear - A Hl; lia); lia).
    replace (p + 256 + 256) with (p + 512) by (clear; lia).
    assert (E5 : rem / 512 = S ((rem - 512) / 512)).
    { replace rem with ((rem - 512) + 1 * 512) at 1 by (clear - A; lia). rewrite Nat.div_add by discriminate. clear; lia. }
    assert (M5 : rem mod 512 = (rem - 512) mod 512).
    { replace rem with ((rem - 512) + 1 * 512) at 1 by (clear - A; lia). apply Nat.mod_add. discriminate. }
    change (2 * 256) with 512.
    rewrite IH; [|apply Nat.even_spec; exists (h - 256); clear - Eh A; lia|clear - E5 Hf; lia|clear - Hl A; lia].
    assert (E2 : rem / 2 = 256 + (rem - 512) / 2).
    { rewrite Eh2. replace (rem - 512) with ((h - 256) * 2) by (clear - Eh; lia). rewrite Nat.div_mul by discriminate. clear - Eh A. lia. }
    rewrite E2, seq_app, !map_app, !app_assoc. rewrite !bytes_at_map by (clear - A Hl; lia). rewrite !map_map.
    assert (S1 : map (byte0 l (p + 512)) (seq 0 ((rem - 512) / 2)) = map (byte0 l p) (seq (0 + 256) ((rem - 512) / 2)) /\
                 map (byte1 l (p + 512) (rem - 512)) (seq 0 ((rem - 512) / 2)) = map (byte1 l p rem) (seq (0 + 256) ((rem - 512) / 2))).
    { generalize ((rem - 512) / 2) as q. intros q. change (0 + 256) with 256.
      pose proof (seq_by 256 q) as Q.
      rewrite Q, !map_map. split; apply map_ext; intros j; destruct (div_small_add j) as [J1 J2]; unfold byte0, byte1; rewrite J1, J2.
      - do 2 f_equal. clear; lia.
      - rewrite E5, M5. change (S (j / 256) <? S ((rem - 512) / 512)) with (j / 256 <? (rem - 512) / 512). do 2 f_equal. clear; lia. }
    destruct S1 as [S1 S2]. rewrite S1, S2. f_equal.
    assert (Z0 : forall j, j < 256 -> (0 <? rem / 512) = true) by (intros; apply Nat.ltb_lt; clear - E5; lia).
    f_equal; f_equal; f_equal; apply map_ext_in; intros j Hj; apply in_seq in Hj; destruct (low_index j ltac:(clear - Hj; lia)) as [J1 J2]; unfold byte0, byte1; rewrite J1, J2.
    + rewrite Nat.mul_0_r, Nat.add_0_r. reflexivity.
    + rewrite Nat.mul_0_r, Nat.add_0_r, (Z0 j) by (clear - Hj; lia). reflexivity.
Qed.
Lemma blocks_inside l : forall fuel rem p a b x, Nat.even rem = true -> rem / 512 < fuel -> hfe_blocks fuel rem (skipn p l) a b = Ok x -> rem = 0 \/ p + rem <= length l.
Proof.
  induction fuel as [|fuel IH]; intros rem p a b x Ev Hf E; [lia|]. cbn [hfe_blocks] in E.
  destruct (Nat.eqb_spec rem 0) as [->|Hz]; [left; reflexivity|right].
  apply Nat.even_spec in Ev as [h Eh]. assert (Eh2 : rem / 2 = h) by (rewrite Eh, Nat.mul_comm; apply Nat.div_mul; discriminate).
  destruct (Nat.ltb_spec rem 512) as [A|A].
  - rewrite Eh2 in E. rewrite exact_pos in E by lia. destruct (Nat.leb_spec (p + h) (length l)) as [B|B]; cbn [obind] in E; [|discriminate].
    rewrite exact_pos in E by lia. destruct (Nat.leb_spec (p + h + h) (length l)) as [C|C]; cbn [obind] in E; [lia|discriminate].
  - rewrite exact_pos in E by lia. destruct (Nat.leb_spec (p + 256) (length l)) as [B|B]; cbn [obind] in E; [|discriminate].
    rewrite exact_pos in E by lia. destruct (Nat.leb_spec (p + 256 + 256) (length l)) as [C|C]; cbn [obind] in E; [|discriminate].
    change (2 * 256) with 512 in E.
    assert (E5 : rem / 512 = S ((rem - 512) / 512)).
    { replace rem with ((rem - 512) + 1 * 512) at 1 by (clear - A; lia). rewrite Nat.div_add by discriminate. clear; lia. }
    apply IH in E; [|apply Nat.even_spec; exists (h - 256); clear - Eh A; lia|clear - E5 Hf; lia]. lia.
Qed.
