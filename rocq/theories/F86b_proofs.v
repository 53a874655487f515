(* F86b_proofs.v - the file: offset table, writer and loader loops. *)
From Verif Require Import Base Base_lemmas BitRing_proofs Mfm_spec
  Chs_model BitRing_model Mfm_model Types_model System34_model MetaSector_model BitStream_model DiskImage_model DiskImage_spec DiskImage_proofs
  Format_model Raw_model Format2_proofs TreeMap_proofs Pce_spec Pce3_proofs F86_model F86_spec F86_proofs.
From Coq Require Import Lia ZArith.

Lemma read_le16_app x r : (x < 65536)%N -> read_le16 (le16 x ++ r) = Ok (x, r).
Proof.
  intros H. unfold le16. cbn [app read_le16]. f_equal. f_equal.
  rewrite (N.mod_small (x / 256)) by (apply N.div_lt_upper_bound; [discriminate|exact H]).
  pose proof (N.div_mod x 256 ltac:(discriminate)). clear - H0. lia.
Qed.
Lemma read_le32_app x r : (x < 4294967296)%N -> read_le32 (le32 x ++ r) = Ok (x, r).
Proof.
  intros H. unfold le32. cbn [app read_le32]. f_equal. f_equal.
  assert (E1 : (x / 65536 = x / 256 / 256)%N) by (rewrite N.div_div by discriminate; reflexivity).
  assert (E2 : (x / 16777216 = x / 256 / 256 / 256)%N) by (rewrite !N.div_div by discriminate; reflexivity).
  assert (H3 : (x / 256 / 256 / 256 < 256)%N) by (rewrite <- E2; apply N.div_lt_upper_bound; [discriminate|exact H]).
  rewrite E1, E2. rewrite (N.mod_small (x / 256 / 256 / 256)) by exact H3.
  pose proof (N.div_mod x 256 ltac:(discriminate)) as A. pose proof (N.div_mod (x / 256) 256 ltac:(discriminate)) as B.
  pose proof (N.div_mod (x / 256 / 256) 256 ltac:(discriminate)) as C. clear - A B C.
  set (a := (x / 256)%N) in *. set (b := (a / 256)%N) in *. set (c := (b / 256)%N) in *. lia.
Qed.
Lemma le32_length x : length (le32 x) = 4. Proof. reflexivity. Qed.
Lemma read_exact_app' n a r : length a = n -> read_exact n (a ++ r) = Ok (a, r).
Proof.
  intros <-. unfold read_exact. rewrite app_length. replace (length a + length r <? length a) with false by (symmetry; apply Nat.ltb_ge; lia).
  rewrite firstn_app, Nat.sub_diag, firstn_O, app_nil_r, firstn_all, skipn_app, Nat.sub_diag, skipn_all. reflexivity.
Qed.
Lemma i32_bytes (n : N) : (n <= 8 * 0x100000)%N ->
  i32_usize (Z.quot (as_i32 n) 8 + (if (Z.rem (as_i32 n) 8 =? 0)%Z then 0 else 1))%Z = ((n + 7) / 8)%N /\ i32_usize (as_i32 n) = n.
Proof.
  intros H. unfold as_i32. replace (n <? 2147483648)%N with true by (symmetry; apply N.ltb_lt; clear - H; lia).
  rewrite Z.quot_div_nonneg, Z.rem_mod_nonneg by lia. unfold i32_usize. split.
  - assert (E : (Z.of_N n / 8 + (if (Z.of_N n mod 8 =? 0) then 0 else 1))%Z = Z.of_N ((n + 7) / 8)).
    { rewrite N2Z.inj_div, N2Z.inj_add. change (Z.of_N 8) with 8%Z. change (Z.of_N 7) with 7%Z.
      pose proof (Z.div_mod (Z.of_N n) 8 ltac:(discriminate)) as A. pose proof (Z.mod_pos_bound (Z.of_N n) 8 ltac:(reflexivity)) as B.
      destruct (Z.eqb_spec (Z.of_N n mod 8) 0) as [Z0|Z0].
      - rewrite Z0 in A. apply Z.div_unique with (r := 7%Z); lia.
      - apply Z.div_unique with (r := (Z.of_N n mod 8 - 1)%Z); lia. }
    rewrite E. rewrite Z.mod_small; [apply N2Z.id|]. split; [lia|].
    assert ((n + 7) / 8 <= n + 7)%N by (apply N.div_le_upper_bound; [discriminate|lia]). lia.
  - rewrite Z.mod_small by lia. apply N2Z.id.
Qed.
Lemma octets_div t : ((N.of_nat (length (cells t)) + 7) / 8 = N.of_nat (octets t))%N.
Proof.
  symmetry. pose proof (to_bytes_len' (cells t)) as [A B]. fold (octets t) in A, B.
  apply N.div_unique with (r := (N.of_nat (length (cells t)) + 7 - 8 * N.of_nat (octets t))%N); lia.
Qed.

(* flags of a file without bit cell offsets *)
Record file_flags (fl : N) (heads : nat) : Prop := mkFF {
  ff0 : N.testbit fl 0 = true; ff3 : N.testbit fl 3 = (heads =? 2); ff5 : N.testbit fl 5 = false; ff6 : N.testbit fl 6 = false;
  ff7 : N.testbit fl 7 = true; ff12 : N.testbit fl 12 = true }.
Definition tf_of (rate rpm : N) : N := (rate + 8 * 1 + 32 * rpm)%N.
Lemma tf_decode rate rpm : (rate <= 3)%N -> (rpm <= 1)%N ->
  (tf_of rate rpm < 65536 /\ (tf_of rate rpm / 32) mod 8 = rpm /\ (tf_of rate rpm / 8) mod 4 = 1 /\ tf_of rate rpm mod 8 = rate)%N.
Proof.
  intros A B. assert (Er : (rate = 0 \/ rate = 1 \/ rate = 2 \/ rate = 3)%N) by lia. assert (Ep : (rpm = 0 \/ rpm = 1)%N) by lia.
  destruct Er as [-> | [-> | [-> | ->]]], Ep as [-> | ->]; repeat split.
Qed.
Lemma entry_surface t : length (to_bytes (weak_cells t)) = octets t ->
  exists post, odd_pad t ++ to_bytes (weak_cells t) ++ odd_pad t = file_surface t ++ post.
Proof.
  intros H. exists (skipn (octets t) (odd_pad t ++ to_bytes (weak_cells t) ++ odd_pad t)).
  rewrite <- (firstn_skipn (octets t) (odd_pad t ++ to_bytes (weak_cells t) ++ odd_pad t)) at 1. f_equal.
  apply nth_ext' with 0%N 0%N.
  - rewrite file_surface_length, firstn_length, !app_length, H. lia.
  - intros i Hi. rewrite firstn_length in Hi. assert (Hi' : i < octets t) by lia. rewrite nth_firstn by exact Hi'.
    unfold file_surface. rewrite nth_map_seq by exact Hi'. unfold odd_pad. rewrite <- Nat.negb_even.
    destruct (Nat.even (octets t)); cbn [negb app]; [rewrite app_nth1 by lia; reflexivity|].
    destruct i as [|i]; [reflexivity|]. cbn [nth]. apply app_nth1. lia.
Qed.
Lemma existsb_forallb (w : list N) : existsb (fun x => negb (x =? 0)%N) w = negb (forallb (N.eqb 0) w).
Proof.
  induction w as [|x w IH]; [reflexivity|]. cbn [existsb forallb]. rewrite IH, (N.eqb_sym x 0). destruct (0 =? x)%N; reflexivity.
Qed.
Lemma zip_is_weak hole t : zip_bytes N.land (file_surface t) (file_cells hole t) = weak_bytes hole t.
Proof.
  apply nth_ext' with 0%N 0%N; [rewrite zip_bytes_length, file_surface_length; unfold weak_bytes; rewrite map_length, seq_length; reflexivity|].
  intros i Hi. rewrite zip_bytes_length, file_surface_length in Hi.
  rewrite zip_bytes_nth with (d1 := 0%N) (d2 := 0%N) by (rewrite file_surface_length, ?file_cells_length; auto).
  unfold weak_bytes. rewrite nth_map_seq by exact Hi. reflexivity.
Qed.

Section Load.
  Variable rnd : Rnd.
  Variable bitlen : N -> N -> N -> N -> bool -> Z -> N.
  Variable other : N -> DiskImage -> DiskCh -> list N -> option (list N) -> nat -> DiskImage * outcome nat.
  Lemma track_step fl heads rate rpm hole t pre post st s c h :
    heads = 1 \/ heads = 2 -> file_flags fl heads -> (rate <= 3)%N -> (rpm <= 1)%N -> f86_track_ok rnd hole t ->
    (fs_rpm st = None \/ fs_rpm st = Some rpm) -> fs_h st = N.of_nat h -> fs_c st = N.of_nat c -> h < heads -> (N.of_nat c < 60000)%N ->
    wf (fs_img st) s -> res_free (fs_img st) ->
    exists st' t', f86_track rnd bitlen other fl (pre ++ entry_of (tf_of rate rpm) hole t ++ post) st
        (N.of_nat (length pre), N.of_nat (length (entry_of (tf_of rate rpm) hole t))) = Ok st' /\
      kept hole t t' /\ bt_ch t' = mkCh (N.of_nat c) (N.of_nat h) /\
      wf (fs_img st') (append_to s (N.of_nat h) (TBit t')) /\ res_free (fs_img st') /\ di_res (fs_img st') = [RBitStream] /\
      fs_rpm st' = Some rpm /\
      (fs_h st' = N.of_nat (if S h =? heads then 0 else S h)) /\ fs_c st' = N.of_nat (if S h =? heads then S c else c).
  Proof.
    intros Hheads [F0 F3 F5 F6 F7 F12] Hrate Hrpm (_ & _ & Hne & Hn & Hw & Hload) Hst Hh Hc Hlt Hc16 Hwf [Hmul Hres].
    destruct (tf_decode rate rpm Hrate Hrpm) as (T1 & T2 & T3 & T4).
    destruct (loaded_track rnd hole t (mkCh (N.of_nat c) (N.of_nat h)) Hne Hload) as (t' & Enew & Ech & Hkept).
    unfold f86_track. rewrite Nat2N.id, skipn_app, Nat.sub_diag, skipn_all, skipn_O, app_nil_l.
    rewrite F0, F3, F5, F6, F7, F12. cbv zeta. change (2 * b2N false + b2N false)%N with 0%N. change (0 =? 0)%N with true. cbn [andb].
    pose proof (entry_length (tf_of rate rpm) hole t Hw) as Elen.
    unfold entry_of at 1. rewrite <- !app_assoc. remember (tf_of rate rpm) as tf. rewrite read_le16_app by exact T1. cbn [obind].
    rewrite read_le32_app by (clear - Hn; lia). cbn [obind]. rewrite read_le32_app by reflexivity. cbn [obind].
    rewrite T2, T3, T4.
    assert (Er : (match rpm with 0 => Ok 0 | 1 => Ok 1 | _ => Err UnsupportedFormat end)%N = Ok rpm).
    { assert (E : (rpm = 0 \/ rpm = 1)%N) by (clear - Hrpm; lia). destruct E as [-> | ->]; reflexivity. }
    rewrite Er. cbn [obind].
    assert (Er2 : match fs_rpm st with Some r => if (r =? rpm)%N then Ok r else Err UnsupportedFormat | None => Ok rpm end = Ok rpm).
    { destruct Hst as [-> | ->]; [reflexivity|]. rewrite N.eqb_refl. reflexivity. }
    rewrite Er2. cbn [obind].
    assert (Er3 : (match rate with 0 => Ok 0 | 1 => Ok 1 | 2 => Ok 2 | 3 => Ok 3 | _ => Err UnsupportedFormat end)%N = Ok rate).
    { assert (E : (rate = 0 \/ rate = 1 \/ rate = 2 \/ rate = 3)%N) by (clear - Hrate; lia). destruct E as [-> | [-> | [-> | ->]]]; reflexivity. }
    rewrite Er3. cbn [obind]. clear Er Er2 Er3.
    replace (N.of_nat (length (entry_of tf hole t)) <? 10)%N with false by (symmetry; apply N.ltb_ge; rewrite Elen; clear; lia).
    assert (Eraw : (N.of_nat (length (entry_of tf hole t)) - 10)%N = (2 * N.of_nat (octets t + octets t mod 2))%N) by (rewrite Elen; clear; lia).
    rewrite Eraw. rewrite N.odd_mul. cbn [N.odd andb].
    assert (Ehalf : (2 * N.of_nat (octets t + octets t mod 2) / 2)%N = N.of_nat (octets t + octets t mod 2)).
    { rewrite N.mul_comm. apply N.div_mul. discriminate. }
    rewrite Ehalf. destruct (i32_bytes (N.of_nat (length (cells t))) Hn) as [Eb En]. rewrite Eb, En, octets_div.
    replace (N.of_nat (octets t + octets t mod 2) <? N.of_nat (octets t))%N with false by (symmetry; apply N.ltb_ge; clear; lia).
    cbn [obind]. rewrite !Nat2N.id.
    rewrite read_exact_app' by apply file_cells_length. cbn [obind].
    destruct (entry_surface t Hw) as [post' Epost].
    assert (Esurf : odd_pad t ++ to_bytes (weak_cells t) ++ odd_pad t ++ post = file_surface t ++ (post' ++ post)).
    { rewrite app_assoc in Epost. rewrite !app_assoc, Epost. reflexivity. }
    rewrite Esurf. rewrite read_exact_app' by apply file_surface_length. cbn [obind].
    rewrite zip_is_weak, existsb_forallb.
    assert (Ewk : (if negb (forallb (N.eqb 0) (weak_bytes hole t)) then Some (weak_bytes hole t) else None) = file_weak hole t).
    { unfold file_weak. cbv zeta. fold (weak_bytes hole t). destruct (forallb _ _); reflexivity. }
    rewrite Ewk. change (1 =? 1)%N with true.
    assert (Hrej : res_rejects (fs_img st) RBitStream = false) by (unfold res_rejects; rewrite Hmul; destruct Hres as [-> | ->]; reflexivity).
    rewrite Hh, Hc. unfold add_track_bitstream. cbn [ch_h].
    replace (2 <=? N.of_nat h)%N with false by (symmetry; apply N.leb_gt; clear - Hlt Hheads; lia).
    rewrite Hrej, Enew. cbn [obind].
    set (d1 := push_track (with_res (fs_img st) (res_insert RBitStream (di_res (fs_img st)))) (N.of_nat h) (TBit t')).
    assert (Hwf1 : wf d1 (append_to s (N.of_nat h) (TBit t'))) by (apply push_wf; [apply with_res_wf; exact Hwf|clear - Hlt Hheads; lia]).
    assert (Hres2 : di_res d1 = [RBitStream]) by (unfold d1, push_track; cbn; destruct Hres as [-> | ->]; reflexivity).
    assert (Hres1 : res_free d1) by (split; [exact Hmul|right; exact Hres2]).
    assert (Esides : (N.of_nat h + 1 =? (if (heads =? 2)%nat then 2 else 1))%N = (S h =? heads)).
    { destruct Hheads as [-> | ->].
      - assert (h = 0) by (clear - Hlt; lia). subst h. reflexivity.
      - assert (Eh : h = 0 \/ h = 1) by (clear - Hlt; lia). destruct Eh as [-> | ->]; reflexivity. }
    rewrite Esides. destruct (S h =? heads).
    - replace (N.of_nat c =? 65535)%N with false by (symmetry; apply N.eqb_neq; clear - Hc16; lia).
      eexists _, t'. split; [reflexivity|]. cbn [fs_img fs_rpm fs_h fs_c].
      split; [exact Hkept|]. split; [exact Ech|]. split; [exact Hwf1|]. split; [exact Hres1|]. split; [exact Hres2|].
      split; [reflexivity|]. split; [reflexivity|clear; lia].
    - eexists _, t'. split; [reflexivity|]. cbn [fs_img fs_rpm fs_h fs_c].
      split; [exact Hkept|]. split; [exact Ech|]. split; [exact Hwf1|]. split; [exact Hres1|]. split; [exact Hres2|].
      split; [reflexivity|]. split; [clear; lia|reflexivity].
  Qed.
End Load.
