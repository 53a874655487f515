(* Crc_proofs.v - theory of MSB-first CRCs of any width. *)
From Verif Require Import Base Base_lemmas Mfm_spec Mfm_proofs Crc_model Crc_spec.
From Coq Require Import Btauto.

Lemma lt_pow2_bits s w : (forall i, (w <= i)%N -> N.testbit s i = false) -> (s < 2 ^ w)%N.
Proof.
  intros H. destruct (N.eq_dec s 0) as [->|Hs]; [apply N.neq_0_lt_0, N.pow_nonzero; lia|].
  apply N.log2_lt_pow2; [lia|].
  destruct (N.lt_ge_cases (N.log2 s) w) as [Hl|Hl]; auto.
  specialize (H _ Hl). rewrite N.bit_log2 in H by auto. discriminate.
Qed.
Lemma bits_lt_pow2 s w i : (s < 2 ^ w)%N -> (w <= i)%N -> N.testbit s i = false.
Proof.
  intros H Hi. destruct (N.eq_dec s 0) as [->|Hs]; [apply N.bits_0|].
  apply N.bits_above_log2. apply N.log2_lt_pow2 in H; lia.
Qed.
Lemma lxor_lt a b w : (a < 2 ^ w -> b < 2 ^ w -> N.lxor a b < 2 ^ w)%N.
Proof.
  intros Ha Hb. apply lt_pow2_bits. intros i Hi. rewrite N.lxor_spec.
  rewrite (bits_lt_pow2 a w i), (bits_lt_pow2 b w i) by auto. reflexivity.
Qed.
Lemma lxor4 a b c d : N.lxor (N.lxor a b) (N.lxor c d) = N.lxor (N.lxor a c) (N.lxor b d).
Proof. apply N.bits_inj; intros i. rewrite !N.lxor_spec. btauto. Qed.
Lemma bits_val_cons b l : bits_val (b :: l) = ((if b then 2 ^ N.of_nat (length l) else 0) + bits_val l)%N.
Proof.
  change (b :: l) with ([b] ++ l). rewrite bits_val_app.
  replace (bits_val [b]) with (b2N b) by (destruct b; reflexivity).
  destruct b; cbn [b2N]; lia.
Qed.
Lemma clmul_double q g : clmul (N.double q) g = N.double (clmul q g).
Proof. destruct q; reflexivity. Qed.
Lemma clmul_succ_double q g : clmul (N.succ_double q) g = N.lxor g (N.double (clmul q g)).
Proof. destruct q; cbn; [|reflexivity]. rewrite N.lxor_0_r. reflexivity. Qed.
Lemma double_lxor a b : N.double (N.lxor a b) = N.lxor (N.double a) (N.double b).
Proof.
  assert (Hd : forall x, N.double x = N.shiftl x 1) by (intros; rewrite N.shiftl_mul_pow2, N.double_spec; lia).
  rewrite !Hd. apply N.bits_inj; intros i. rewrite N.lxor_spec.
  destruct (N.eq_dec i 0) as [->|Hi].
  - rewrite !N.shiftl_spec_low by lia. reflexivity.
  - rewrite !N.shiftl_spec_high' by lia. apply N.lxor_spec.
Qed.
Lemma bits_val_0 l : bits_val l = 0%N -> Forall (fun b => b = false) l.
Proof.
  induction l as [|b l IH]; intros H; constructor; rewrite bits_val_cons in H.
  - destruct b; auto. pose proof (N.pow_nonzero 2 (N.of_nat (length l))). lia.
  - apply IH. lia.
Qed.

Section Crc.
Variables (W G : N).
Hypothesis HW : (1 <= W)%N.
Hypothesis HG : (G < 2 ^ W)%N.

Definition zstep (s : N) : N :=
  N.lxor ((2 * s) mod 2 ^ W) (if N.testbit s (W - 1) then G else 0).
Definition bstep (s : N) (b : bool) : N := zstep (N.lxor s (if b then 2 ^ (W - 1) else 0)%N).
Definition crcb (s : N) (l : list bool) : N := fold_left bstep l s.

Lemma zstep_testbit s i :
  N.testbit (zstep s) i =
  xorb ((i <? W)%N && negb (i =? 0)%N && N.testbit s (i - 1)) (N.testbit s (W - 1) && N.testbit G i).
Proof.
  unfold zstep. rewrite N.lxor_spec.
  assert (E2 : N.testbit (if N.testbit s (W - 1) then G else 0%N) i = N.testbit s (W - 1) && N.testbit G i)
    by (destruct (N.testbit s (W - 1)); cbn [andb]; [reflexivity|apply N.bits_0]).
  rewrite E2. f_equal.
  destruct (N.ltb_spec i W) as [H|H]; cbn [andb].
  - rewrite N.mod_pow2_bits_low by lia.
    destruct (N.eqb_spec i 0) as [->|Hi]; cbn [negb andb].
    + apply N.testbit_even_0.
    + replace i with (N.succ (i - 1)) at 1 by lia. rewrite N.testbit_even_succ by lia. reflexivity.
  - apply N.mod_pow2_bits_high; lia.
Qed.


Lemma zstep_lt s : (zstep s < 2 ^ W)%N.
Proof.
  apply lt_pow2_bits. intros i Hi. rewrite zstep_testbit.
  rewrite (bits_lt_pow2 G W i HG Hi), andb_false_r.
  replace (i <? W)%N with false by lia. reflexivity.
Qed.
Lemma zstep_lxor a b : zstep (N.lxor a b) = N.lxor (zstep a) (zstep b).
Proof. apply N.bits_inj; intros i. rewrite N.lxor_spec, !zstep_testbit, !N.lxor_spec. btauto. Qed.
Lemma zstep_0 : zstep 0 = 0%N.
Proof. apply N.bits_inj; intros i. rewrite zstep_testbit, !N.bits_0. btauto. Qed.
Lemma zstep_small s : (s < 2 ^ (W - 1))%N -> zstep s = (2 * s)%N.
Proof.
  intros H. unfold zstep. rewrite (bits_lt_pow2 s (W - 1)) by (auto; lia).
  rewrite N.lxor_0_r. apply N.mod_small.
  replace W with (N.succ (W - 1)) by lia. rewrite N.pow_succ_r'. lia.
Qed.
(* For an odd polynomial a round is injective. *)
Lemma zstep_eq0 s : N.testbit G 0 = true -> (s < 2 ^ W)%N -> zstep s = 0%N -> s = 0%N.
Proof.
  intros Hodd Hs H.
  assert (Htop : N.testbit s (W - 1) = false).
  { pose proof (f_equal (fun x => N.testbit x 0) H) as H0. cbn beta in H0.
    rewrite zstep_testbit, N.bits_0, Hodd in H0.
    destruct (N.testbit s (W - 1)); auto.
    change (0 =? 0)%N with true in H0. cbn [negb] in H0.
    rewrite andb_false_r in H0. discriminate. }
  apply N.bits_inj; intros i. rewrite N.bits_0.
  destruct (N.lt_ge_cases i (W - 1)) as [Hi|Hi].
  - pose proof (f_equal (fun x => N.testbit x (i + 1)) H) as H1. cbn beta in H1.
    rewrite zstep_testbit, N.bits_0, Htop in H1.
    replace (i + 1 <? W)%N with true in H1 by lia.
    replace (i + 1 =? 0)%N with false in H1 by lia.
    replace (i + 1 - 1)%N with i in H1 by lia.
    cbn [negb andb] in H1. rewrite xorb_false_r in H1. exact H1.
  - destruct (N.eq_dec i (W - 1)) as [->|Hi2]; auto.
    apply (bits_lt_pow2 s W); auto; lia.
Qed.

Lemma bstep_lt s b : (bstep s b < 2 ^ W)%N.
Proof. apply zstep_lt. Qed.
Lemma crcb_app s l1 l2 : crcb s (l1 ++ l2) = crcb (crcb s l1) l2.
Proof. apply fold_left_app. Qed.
Lemma crcb_lt s l : (s < 2 ^ W)%N -> (crcb s l < 2 ^ W)%N.
Proof.
  revert s; induction l as [|b l IH]; intros s Hs; cbn [crcb fold_left]; auto.
  apply IH, bstep_lt.
Qed.
Lemma top_xor b1 b2 :
  (if xorb b1 b2 then 2 ^ (W - 1) else 0)%N =
  N.lxor (if b1 then 2 ^ (W - 1) else 0) (if b2 then 2 ^ (W - 1) else 0).
Proof. destruct b1, b2; cbn [xorb]; rewrite ?N.lxor_0_r, ?N.lxor_0_l, ?N.lxor_nilpotent; reflexivity. Qed.
Lemma bstep_lxor s t b c : bstep (N.lxor s t) (xorb b c) = N.lxor (bstep s b) (bstep t c).
Proof. unfold bstep. rewrite top_xor, lxor4. apply zstep_lxor. Qed.
(* Linearity: the CRCs of two equally long bit strings differ by the CRC of the difference. *)
Lemma crcb_linear s t a b :
  length a = length b ->
  N.lxor (crcb s a) (crcb t b) = crcb (N.lxor s t) (bit_diff a b).
Proof.
  revert s t b; induction a as [|x a IH]; intros s t [|y b] H; try discriminate; auto.
  cbn [crcb fold_left bit_diff combine map fst snd].
  rewrite bstep_lxor. apply IH. cbn in H; lia.
Qed.

(* Rounds without input. *)
Fixpoint zeros (k : nat) (s : N) : N := match k with O => s | S j => zeros j (zstep s) end.
Lemma zeros_S k s : zeros (S k) s = zeros k (zstep s).
Proof. reflexivity. Qed.
Lemma zeros_0 k : zeros k 0 = 0%N.
Proof. induction k as [|k IH]; [reflexivity|]. rewrite zeros_S, zstep_0; auto. Qed.
Lemma zeros_lt k s : (s < 2 ^ W)%N -> (zeros k s < 2 ^ W)%N.
Proof. revert s; induction k as [|k IH]; intros s H; auto. rewrite zeros_S. apply IH, zstep_lt. Qed.
Lemma zeros_lxor k a b : zeros k (N.lxor a b) = N.lxor (zeros k a) (zeros k b).
Proof. revert a b; induction k as [|k IH]; intros a b; [reflexivity|]. rewrite !zeros_S, zstep_lxor; auto. Qed.
Lemma zeros_eq0 k s : N.testbit G 0 = true -> (s < 2 ^ W)%N -> zeros k s = 0%N -> s = 0%N.
Proof.
  intros Ho; revert s; induction k as [|k IH]; intros s Hs H; auto.
  rewrite zeros_S in H. apply zstep_eq0; auto. apply IH; auto. apply zstep_lt.
Qed.
Lemma zeros_add k j s : zeros (k + j) s = zeros j (zeros k s).
Proof. revert s; induction k as [|k IH]; intros s; cbn [plus zeros]; auto. Qed.
Lemma crcb_zeros s k : crcb s (repeat false k) = zeros k s.
Proof.
  revert s; induction k as [|k IH]; intros s; auto.
  rewrite zeros_S. cbn [repeat crcb fold_left]. unfold bstep at 2. rewrite N.lxor_0_r. apply IH.
Qed.

(* A block of at most W bits is absorbed at once. *)
Lemma crcb_block l s :
  (N.of_nat (length l) <= W)%N -> (s < 2 ^ W)%N ->
  crcb s l = zeros (length l) (N.lxor s (bits_val l * 2 ^ (W - N.of_nat (length l)))).
Proof.
  revert s; induction l as [|b l IH]; intros s Hl Hs.
  - cbn [crcb fold_left length zeros]. change (bits_val []) with 0%N.
    rewrite N.mul_0_l, N.lxor_0_r. reflexivity.
  - cbn [length] in *. cbn [crcb fold_left]. fold (crcb (bstep s b) l).
    rewrite IH by (try lia; apply bstep_lt). rewrite zeros_S. f_equal.
    rewrite bits_val_cons.
    assert (Hb : (bits_val l < 2 ^ N.of_nat (length l))%N) by apply bits_val_lt.
    set (n := N.of_nat (length l)) in *.
    replace (N.of_nat (S (length l))) with (n + 1)%N by (unfold n; lia).
    assert (Hn : (n + 1 <= W)%N) by (unfold n; lia). clearbody n. clear IH Hl.
    assert (E : (((if b then 2 ^ n else 0) + bits_val l) * 2 ^ (W - (n + 1)) =
                N.lxor (if b then 2 ^ (W - 1) else 0) (bits_val l * 2 ^ (W - (n + 1))))%N).
    { assert (Hpow : (2 ^ n * 2 ^ (W - (n + 1)) = 2 ^ (W - 1))%N)
        by (rewrite <- N.pow_add_r; f_equal; lia).
      assert (Hlt : (bits_val l * 2 ^ (W - (n + 1)) < 2 ^ (W - 1))%N).
      { rewrite <- Hpow. apply N.mul_lt_mono_pos_r; auto. apply N.neq_0_lt_0, N.pow_nonzero; lia. }
      rewrite N.mul_add_distr_r. destruct b.
      - rewrite Hpow. rewrite <- N.add_nocarry_lxor; [reflexivity|].
        all: apply N.bits_inj; intros i; rewrite N.land_spec, N.bits_0, N.pow2_bits_eqb.
        all: destruct (N.eqb_spec (W - 1) i) as [<-|]; cbn [andb]; auto.
        all: apply (bits_lt_pow2 _ (W - 1)); auto; lia.
      - rewrite N.lxor_0_l. lia. }
    rewrite E. rewrite N.lxor_assoc || idtac.
    rewrite <- N.lxor_assoc. rewrite zstep_lxor. unfold bstep. f_equal.
    rewrite zstep_small.
    + replace (W - n)%N with (N.succ (W - (n + 1))) by lia. rewrite N.pow_succ_r'. lia.
    + replace (W - 1)%N with (n + (W - (n + 1)))%N by lia. rewrite N.pow_add_r.
      apply N.mul_lt_mono_pos_r; auto. apply N.neq_0_lt_0, N.pow_nonzero; lia.
Qed.

(* The CRC is the remainder of init*x^n + M*x^W modulo x^W + G. *)
Lemma zstep_poly s : (s < 2 ^ W)%N ->
  N.double s = N.lxor (if N.testbit s (W - 1) then N.lxor (2 ^ W) G else 0) (zstep s).
Proof.
  intros Hs. apply N.bits_inj; intros i.
  rewrite N.lxor_spec, zstep_testbit.
  assert (E : N.testbit (if N.testbit s (W - 1) then N.lxor (2 ^ W) G else 0%N) i =
              N.testbit s (W - 1) && xorb (W =? i)%N (N.testbit G i)).
  { destruct (N.testbit s (W - 1)); cbn [andb]; [|apply N.bits_0].
    rewrite N.lxor_spec, N.pow2_bits_eqb. reflexivity. }
  rewrite E. clear E. rewrite N.double_spec.
  destruct (N.eq_dec i 0) as [->|Hi].
  - rewrite N.testbit_even_0. replace (W =? 0)%N with false by lia.
    replace (0 <? W)%N with true by lia. change (0 =? 0)%N with true. btauto.
  - replace i with (N.succ (i - 1)) at 1 by lia. rewrite N.testbit_even_succ by lia.
    replace (i =? 0)%N with false by lia. cbn [negb]. rewrite andb_true_r.
    destruct (N.ltb_spec i W) as [H|H]; cbn [andb].
    + replace (W =? i)%N with false by lia. btauto.
    + rewrite (bits_lt_pow2 G W i) by auto.
      destruct (N.eqb_spec W i) as [->|H2]; [btauto|].
      rewrite (bits_lt_pow2 s W (i - 1)) by (auto; lia). btauto.
Qed.
Lemma crcb_rem s l : (s < 2 ^ W)%N ->
  is_rem W (N.lxor (2 ^ W) G)
    (N.lxor (s * 2 ^ N.of_nat (length l)) (bits_val l * 2 ^ W)) (crcb s l).
Proof.
  intros Hs. split; [apply crcb_lt; auto|].
  induction l as [|b l IH] using rev_ind.
  - exists 0%N. cbn [clmul crcb fold_left length]. change (bits_val []) with 0%N.
    rewrite N.mul_0_l, N.lxor_0_r, N.lxor_0_l. change (2 ^ N.of_nat 0)%N with 1%N. lia.
  - destruct IH as [q Hq]. set (c := crcb s l) in *.
    assert (Hc : (c < 2 ^ W)%N) by (apply crcb_lt; auto).
    rewrite crcb_app. fold c. cbn [crcb fold_left]. rewrite app_length. cbn [length].
    replace (N.of_nat (length l + 1)) with (N.succ (N.of_nat (length l))) by lia.
    rewrite N.pow_succ_r'.
    set (m := N.of_nat (length l)) in *.
    assert (E : N.lxor (s * (2 * 2 ^ m)) (bits_val (l ++ [b]) * 2 ^ W) =
                N.lxor (N.double (N.lxor (s * 2 ^ m) (bits_val l * 2 ^ W))) (if b then 2 ^ W else 0)).
    { clear -HW. clearbody m. rewrite double_lxor, N.lxor_assoc.
      rewrite (N.double_spec (s * 2 ^ m)), (N.double_spec (bits_val l * 2 ^ W)).
      replace (s * (2 * 2 ^ m))%N with (2 * (s * 2 ^ m))%N by lia. f_equal.
      rewrite bits_val_snoc.
      assert (Hw : (2 ^ W <> 0)%N) by (apply N.pow_nonzero; lia).
      destruct b; cbn [b2N].
      - assert (Hdis : N.lxor (2 * (bits_val l * 2 ^ W)) (2 ^ W) = (2 * (bits_val l * 2 ^ W) + 2 ^ W)%N).
        { symmetry. apply N.add_nocarry_lxor. apply N.bits_inj; intros i.
          rewrite N.land_spec, N.bits_0, N.pow2_bits_eqb.
          destruct (N.eqb_spec W i) as [<-|]; [|apply andb_false_r].
          rewrite andb_true_r. replace (2 * (bits_val l * 2 ^ W))%N with (bits_val l * 2 ^ (N.succ W))%N
            by (rewrite N.pow_succ_r'; lia).
          apply N.mul_pow2_bits_low; lia. }
        rewrite Hdis. lia.
      - rewrite N.lxor_0_r. lia. }
    rewrite E, Hq, double_lxor.
    pose proof (zstep_poly (N.lxor c (if b then 2 ^ (W - 1) else 0))) as Hz.
    assert (Hlt : (N.lxor c (if b then 2 ^ (W - 1) else 0) < 2 ^ W)%N).
    { apply lxor_lt; auto. destruct b; [apply N.pow_lt_mono_r; lia|apply N.neq_0_lt_0, N.pow_nonzero; lia]. }
    specialize (Hz Hlt). rewrite double_lxor in Hz.
    assert (Hb : N.double (if b then 2 ^ (W - 1) else 0)%N = (if b then 2 ^ W else 0)%N).
    { destruct b; [|reflexivity]. rewrite N.double_spec, <- N.pow_succ_r'. f_equal; lia. }
    rewrite Hb in Hz. rewrite N.lxor_assoc, Hz. fold (bstep c b).
    destruct (N.testbit _ _).
    + exists (N.succ_double q). rewrite clmul_succ_double.
      rewrite <- N.lxor_assoc. f_equal. apply N.lxor_comm.
    + exists (N.double q). rewrite clmul_double, N.lxor_0_l. reflexivity.
Qed.

(* Appending the CRC gives zero, and only the CRC does. *)
Lemma crcb_check s l c :
  N.testbit G 0 = true -> (s < 2 ^ W)%N -> N.of_nat (length c) = W ->
  crcb s (l ++ c) = 0%N <-> bits_val c = crcb s l.
Proof.
  intros Ho Hs Hc. rewrite crcb_app, crcb_block by (try lia; apply crcb_lt; auto).
  rewrite Hc, N.sub_diag, N.pow_0_r, N.mul_1_r.
  assert (Hv : (bits_val c < 2 ^ W)%N) by (rewrite <- Hc; apply bits_val_lt).
  split; intros H.
  - apply zeros_eq0 in H; auto; [|apply lxor_lt; auto; apply crcb_lt; auto].
    apply N.lxor_eq in H. congruence.
  - rewrite H, N.lxor_nilpotent. apply zeros_0.
Qed.

(* Burst errors of at most W bits. *)
Lemma crcb_burst d : N.testbit G 0 = true ->
  (exists p, forall i, nth i d false = true -> p <= i /\ (N.of_nat (i - p) < W)%N) ->
  In true d -> crcb 0 d <> 0%N.
Proof.
  intros Ho [p Hp] Hin H0.
  set (k := N.to_nat W).
  (* split as false^p ++ w ++ false^q *)
  assert (Hpl : p < length d).
  { apply In_nth with (d := false) in Hin as (i & Hi & Hv). specialize (Hp i Hv). lia. }
  assert (Hsplit : d = repeat false p ++ slice d p k ++ repeat false (length d - p - k)).
  { apply list_eq_nth_error. intros i.
    destruct (Nat.ltb_spec i p) as [H1|H1].
    - rewrite nth_error_app1 by (rewrite repeat_length; lia).
      rewrite nth_error_repeat by lia.
      rewrite (nth_error_nth' d false) by lia. f_equal.
      destruct (nth i d false) eqn:E; auto. apply Hp in E. lia.
    - rewrite nth_error_app2; rewrite repeat_length; [|lia].
      destruct (Nat.ltb_spec (i - p) (length (slice d p k))) as [H2|H2].
      + rewrite nth_error_app1 by lia. unfold slice in *.
        rewrite nth_error_firstn, nth_error_skipn. rewrite firstn_length, skipn_length in H2.
        destruct (Nat.ltb_spec (i - p) k); [|lia]. f_equal; lia.
      + rewrite nth_error_app2 by lia.
        unfold slice in *. rewrite firstn_length, skipn_length in *.
        destruct (Nat.ltb_spec i (length d)) as [H3|H3].
        * rewrite (nth_error_nth' d false) by lia.
          rewrite nth_error_repeat by lia. f_equal.
          destruct (nth i d false) eqn:E; auto. apply Hp in E. unfold k in *. lia.
        * rewrite !(proj2 (nth_error_None _ _)); auto. rewrite repeat_length. lia. }
  assert (Hlen : length (slice d p k) <= k) by (unfold slice; rewrite firstn_length; lia).
  assert (Hw : In true (slice d p k)).
  { rewrite Hsplit in Hin. rewrite !in_app_iff in Hin.
    destruct Hin as [Hin|[Hin|Hin]]; auto; apply repeat_spec in Hin; discriminate. }
  rewrite Hsplit, !crcb_app, !crcb_zeros, zeros_0 in H0.
  assert (Hpos : (0 < 2 ^ W)%N) by (apply N.neq_0_lt_0, N.pow_nonzero; lia).
  apply zeros_eq0 in H0; auto; [|apply crcb_lt; auto].
  rewrite crcb_block in H0 by (auto; unfold k in *; lia). rewrite N.lxor_0_l in H0.
  set (w := slice d p k) in *.
  assert (Hb : (bits_val w * 2 ^ (W - N.of_nat (length w)) < 2 ^ W)%N).
  { pose proof (bits_val_lt w) as Hv.
    replace (2 ^ W)%N with (2 ^ N.of_nat (length w) * 2 ^ (W - N.of_nat (length w)))%N.
    - apply N.mul_lt_mono_pos_r; auto. apply N.neq_0_lt_0, N.pow_nonzero; lia.
    - rewrite <- N.pow_add_r. f_equal. unfold k in *. lia. }
  apply zeros_eq0 in H0; auto.
  apply N.mul_eq_0_l in H0; [|apply N.pow_nonzero; lia].
  apply bits_val_0 in H0. rewrite Forall_forall in H0. apply H0 in Hw. discriminate.
Qed.

(* Two single-bit errors at distance n. *)
Lemma crcb_two p n q : N.testbit G 0 = true ->
  zeros n (zstep (2 ^ (W - 1))) <> N.lxor (2 ^ (W - 1)) 0 ->
  crcb 0 (repeat false p ++ true :: repeat false n ++ true :: repeat false q) <> 0%N.
Proof.
  intros Ho Hn H0.
  assert (Hpos : (0 < 2 ^ W)%N) by (apply N.neq_0_lt_0, N.pow_nonzero; lia).
  assert (Ht : (2 ^ (W - 1) < 2 ^ W)%N) by (apply N.pow_lt_mono_r; lia).
  rewrite crcb_app, crcb_zeros, zeros_0 in H0.
  change (true :: repeat false n ++ true :: repeat false q)
    with ([true] ++ repeat false n ++ [true] ++ repeat false q) in H0.
  rewrite !crcb_app, !crcb_zeros in H0.
  apply zeros_eq0 in H0; auto; [|apply crcb_lt, zeros_lt, crcb_lt; auto].
  cbn [crcb fold_left] in H0. unfold bstep in H0.
  apply zstep_eq0 in H0; auto; [|apply lxor_lt; auto; apply zeros_lt, zstep_lt].
  apply N.lxor_eq in H0. rewrite N.lxor_0_l in H0. rewrite N.lxor_0_r in Hn. auto.
Qed.
End Crc.
