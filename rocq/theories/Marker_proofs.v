(* Marker_proofs.v - where address marks can occur in an MFM bit stream. *)
From Verif Require Import Base Base_lemmas BitRing_model RangeCheck_model Mfm_model Mfm_spec BitRing_proofs Mfm_proofs.

Lemma testbit_snoc x b i :
  N.testbit (2 * x + b2N b) i = if (i =? 0)%N then b else N.testbit x (i - 1).
Proof.
  destruct (N.eqb_spec i 0) as [->|H].
  - destruct b; cbn [b2N]; [rewrite N.testbit_odd_0|rewrite N.add_0_r, N.testbit_even_0]; reflexivity.
  - replace i with (N.succ (i - 1)) at 1 by lia.
    destruct b; cbn [b2N]; [rewrite N.testbit_odd_succ by lia|rewrite N.add_0_r, N.testbit_even_succ by lia]; reflexivity.
Qed.

Lemma testbit_bits_val l i : i < length l ->
  N.testbit (bits_val l) (N.of_nat (length l - 1 - i)) = nth i l false.
Proof.
  revert i; induction l as [|b l IH] using rev_ind; intros i H; [cbn in H; lia|].
  rewrite app_length in *; cbn [length] in *. rewrite bits_val_snoc, testbit_snoc.
  destruct (N.eqb_spec (N.of_nat (length l + 1 - 1 - i)) 0).
  - assert (i = length l) by lia. subst i. rewrite app_nth2, Nat.sub_diag by lia. reflexivity.
  - rewrite app_nth1 by lia. replace (N.of_nat (length l + 1 - 1 - i) - 1)%N with (N.of_nat (length l - 1 - i)) by lia.
    apply IH; lia.
Qed.

Lemma nth_slice l p n i : p + n <= length l -> i < n -> nth i (slice l p n) false = nth (p + i) (l : list bool) false.
Proof.
  intros H Hi. unfold slice. rewrite nth_firstn by auto.
  clear. revert p; induction l as [|a l IH]; intros [|p]; cbn [skipn plus]; auto.
  - destruct i; reflexivity.
  - cbn [nth]. apply IH.
Qed.

Lemma occurs_bits l mask pat p i : occurs l mask pat p -> i < 64 ->
  N.testbit mask (N.of_nat (63 - i)) = true -> nth (p + i) l false = N.testbit pat (N.of_nat (63 - i)).
Proof.
  intros [H1 H2] Hi Hm. rewrite <- H2, N.land_spec, Hm, andb_true_r. unfold win64.
  pose proof (testbit_bits_val (slice l p 64) i) as E. rewrite slice_length in E by auto.
  replace (64 - 1 - i) with (63 - i) in E by lia. rewrite E by auto. symmetry. apply nth_slice; auto.
Qed.

Lemma testbit_high x n : (x < 2 ^ n)%N -> forall i, (n <= i)%N -> N.testbit x i = false.
Proof.
  intros H i Hi. destruct (N.eq_dec x 0) as [->|Hx]; [apply N.bits_0|].
  apply N.bits_above_log2. apply N.log2_lt_pow2; [lia|]. eapply N.lt_le_trans; [exact H|]. apply N.pow_le_mono_r; lia.
Qed.

Lemma occurs_intro l mask pat p : p + 64 <= length l -> (pat < 2 ^ 64)%N -> 
  (forall i, i < 64 -> nth (p + i) l false && N.testbit mask (N.of_nat (63 - i)) = N.testbit pat (N.of_nat (63 - i))) ->
  occurs l mask pat p.
Proof.
  intros H Hp Hb. split; auto. apply N.bits_inj. intros n. rewrite N.land_spec. unfold win64.
  destruct (N.ltb_spec n 64) as [Hn|Hn].
  - specialize (Hb (63 - N.to_nat n) ltac:(lia)).
    replace (N.of_nat (63 - (63 - N.to_nat n))) with n in Hb by lia. rewrite <- Hb. f_equal.
    pose proof (testbit_bits_val (slice l p 64) (63 - N.to_nat n)) as E. rewrite slice_length in E by auto.
    replace (N.of_nat (64 - 1 - (63 - N.to_nat n))) with n in E by lia. rewrite E by lia. apply nth_slice; lia.
  - rewrite (testbit_high pat 64) by auto.
    rewrite (testbit_high (bits_val (slice l p 64)) 64); auto.
    pose proof (bits_val_lt (slice l p 64)) as G. rewrite slice_length in G by auto. exact G.
Qed.

(* Data bit k of a stream whose clock bits are at even positions. *)
Definition dbit (l : list bool) (k : nat) : bool := nth (2 * k + 1) l false.
Definition cbit (l : list bool) (k : nat) : bool := nth (2 * k) l false.
(* The only missing clocks are at the data-bit indices of C. *)
Definition clocks_ok (l : list bool) (C : nat -> Prop) : Prop :=
  forall k, 2 * S k + 1 < length l -> dbit l k = false -> cbit l (S k) = false -> dbit l (S k) = false -> C (S k).

Definition A1_MASK : N := 0xFFFFFFFFFFFF0000%N.
Definition A1_PAT : N := 0x4489448944890000%N.
Definition C2_PAT : N := 0x5224522452240000%N.

Ltac occ_bit H i :=
  let E := fresh "E" in
  pose proof (occurs_bits _ _ _ _ i H ltac:(lia) eq_refl) as E; cbv -[nth plus mult] in E.

Lemma a1_even l C q : clocks_ok l C -> occurs l A1_MASK A1_PAT (2 * q) ->
  C (q + 5) /\ C (q + 13) /\ C (q + 21) /\
  forall j, j < 24 -> dbit l (q + j) = nth j (bits_of [0xA1; 0xA1; 0xA1]%N) false.
Proof.
  intros HC H. pose proof H as [Hlen _].
  assert (D : forall j, j < 24 -> dbit l (q + j) = nth j (bits_of [0xA1; 0xA1; 0xA1]%N) false).
  { intros j Hj. unfold dbit. replace (2 * (q + j) + 1) with (2 * q + (2 * j + 1)) by lia.
    do 24 (destruct j as [|j]; [rewrite (occurs_bits _ _ _ _ _ H); [reflexivity|lia|reflexivity]|]). lia. }
  assert (K : forall j, j < 24 -> cbit l (q + j) = N.testbit A1_PAT (N.of_nat (63 - 2 * j))).
  { intros j Hj. unfold cbit. replace (2 * (q + j)) with (2 * q + 2 * j) by lia.
    apply (occurs_bits _ _ _ _ _ H); [lia|]. do 24 (destruct j as [|j]; [reflexivity|]). lia. }
  assert (G : forall j, S j < 24 -> nth j (bits_of [0xA1; 0xA1; 0xA1]%N) false = false ->
     nth (S j) (bits_of [0xA1; 0xA1; 0xA1]%N) false = false -> N.testbit A1_PAT (N.of_nat (63 - 2 * S j)) = false -> C (q + S j)).
  { intros j Hj A1 A2 A3. replace (q + S j) with (S (q + j)) by lia. apply HC; [lia| | |].
    - rewrite D by lia; exact A1.
    - replace (S (q + j)) with (q + S j) by lia. rewrite K by lia. exact A3.
    - replace (S (q + j)) with (q + S j) by lia. rewrite D by lia. exact A2. }
  split; [apply (G 4); [lia|reflexivity..]|]. split; [apply (G 12); [lia|reflexivity..]|].
  split; [apply (G 20); [lia|reflexivity..]|]. exact D.
Qed.

Lemma a1_odd l C q : clocks_ok l C -> occurs l A1_MASK A1_PAT (2 * q + 1) ->
  C (q + 2) /\ C (q + 10) /\ C (q + 18) /\
  forall j, j < 24 -> dbit l (q + j) = nth j (bits_of [0x0A; 0x0A; 0x0A]%N) false.
Proof.
  intros HC H. pose proof H as [Hlen _].
  assert (D : forall j, j < 24 -> dbit l (q + j) = nth j (bits_of [0x0A; 0x0A; 0x0A]%N) false).
  { intros j Hj. unfold dbit. replace (2 * (q + j) + 1) with (2 * q + 1 + 2 * j) by lia.
    do 24 (destruct j as [|j]; [rewrite (occurs_bits _ _ _ _ _ H); [reflexivity|lia|reflexivity]|]). lia. }
  assert (K : forall j, j < 23 -> cbit l (q + S j) = N.testbit A1_PAT (N.of_nat (63 - (2 * j + 1)))).
  { intros j Hj. unfold cbit. replace (2 * (q + S j)) with (2 * q + 1 + (2 * j + 1)) by lia.
    apply (occurs_bits _ _ _ _ _ H); [lia|]. do 23 (destruct j as [|j]; [reflexivity|]). lia. }
  assert (G : forall j, S j < 24 -> nth j (bits_of [0x0A; 0x0A; 0x0A]%N) false = false ->
     nth (S j) (bits_of [0x0A; 0x0A; 0x0A]%N) false = false -> N.testbit A1_PAT (N.of_nat (63 - (2 * j + 1))) = false -> C (q + S j)).
  { intros j Hj A1 A2 A3. replace (q + S j) with (S (q + j)) by lia. apply HC; [lia| | |].
    - rewrite D by lia; exact A1.
    - replace (S (q + j)) with (q + S j) by lia. rewrite K by lia. exact A3.
    - replace (S (q + j)) with (q + S j) by lia. rewrite D by lia. exact A2. }
  split; [apply (G 1); [lia|reflexivity..]|]. split; [apply (G 9); [lia|reflexivity..]|].
  split; [apply (G 17); [lia|reflexivity..]|]. exact D.
Qed.

Lemma c2_even l C q : clocks_ok l C -> occurs l A1_MASK C2_PAT (2 * q) ->
  C (q + 4) /\ C (q + 12) /\ C (q + 20) /\
  forall j, j < 24 -> dbit l (q + j) = nth j (bits_of [0xC2; 0xC2; 0xC2]%N) false.
Proof.
  intros HC H. pose proof H as [Hlen _].
  assert (D : forall j, j < 24 -> dbit l (q + j) = nth j (bits_of [0xC2; 0xC2; 0xC2]%N) false).
  { intros j Hj. unfold dbit. replace (2 * (q + j) + 1) with (2 * q + (2 * j + 1)) by lia.
    do 24 (destruct j as [|j]; [rewrite (occurs_bits _ _ _ _ _ H); [reflexivity|lia|reflexivity]|]). lia. }
  assert (K : forall j, j < 24 -> cbit l (q + j) = N.testbit C2_PAT (N.of_nat (63 - 2 * j))).
  { intros j Hj. unfold cbit. replace (2 * (q + j)) with (2 * q + 2 * j) by lia.
    apply (occurs_bits _ _ _ _ _ H); [lia|]. do 24 (destruct j as [|j]; [reflexivity|]). lia. }
  assert (G : forall j, S j < 24 -> nth j (bits_of [0xC2; 0xC2; 0xC2]%N) false = false ->
     nth (S j) (bits_of [0xC2; 0xC2; 0xC2]%N) false = false -> N.testbit C2_PAT (N.of_nat (63 - 2 * S j)) = false -> C (q + S j)).
  { intros j Hj A1 A2 A3. replace (q + S j) with (S (q + j)) by lia. apply HC; [lia| | |].
    - rewrite D by lia; exact A1.
    - replace (S (q + j)) with (q + S j) by lia. rewrite K by lia. exact A3.
    - replace (S (q + j)) with (q + S j) by lia. rewrite D by lia. exact A2. }
  split; [apply (G 3); [lia|reflexivity..]|]. split; [apply (G 11); [lia|reflexivity..]|].
  split; [apply (G 19); [lia|reflexivity..]|]. exact D.
Qed.

(* at odd alignment the violation is between two words *)
Lemma c2_odd l C q : clocks_ok l C -> occurs l A1_MASK C2_PAT (2 * q + 1) ->
  C (q + 8) /\ C (q + 16) /\
  forall j, j < 24 -> dbit l (q + j) = nth j (bits_of [0x14; 0x14; 0x14]%N) false.
Proof.
  intros HC H. pose proof H as [Hlen _].
  assert (D : forall j, j < 24 -> dbit l (q + j) = nth j (bits_of [0x14; 0x14; 0x14]%N) false).
  { intros j Hj. unfold dbit. replace (2 * (q + j) + 1) with (2 * q + 1 + 2 * j) by lia.
    do 24 (destruct j as [|j]; [rewrite (occurs_bits _ _ _ _ _ H); [reflexivity|lia|reflexivity]|]). lia. }
  assert (K : forall j, j < 23 -> cbit l (q + S j) = N.testbit C2_PAT (N.of_nat (63 - (2 * j + 1)))).
  { intros j Hj. unfold cbit. replace (2 * (q + S j)) with (2 * q + 1 + (2 * j + 1)) by lia.
    apply (occurs_bits _ _ _ _ _ H); [lia|]. do 23 (destruct j as [|j]; [reflexivity|]). lia. }
  assert (G : forall j, S j < 24 -> nth j (bits_of [0x14; 0x14; 0x14]%N) false = false ->
     nth (S j) (bits_of [0x14; 0x14; 0x14]%N) false = false -> N.testbit C2_PAT (N.of_nat (63 - (2 * j + 1))) = false -> C (q + S j)).
  { intros j Hj A1 A2 A3. replace (q + S j) with (S (q + j)) by lia. apply HC; [lia| | |].
    - rewrite D by lia; exact A1.
    - replace (S (q + j)) with (q + S j) by lia. rewrite K by lia. exact A3.
    - replace (S (q + j)) with (q + S j) by lia. rewrite D by lia. exact A2. }
  split; [apply (G 7); [lia|reflexivity..]|]. split; [apply (G 15); [lia|reflexivity..]|]. exact D.
Qed.

(* Ordinary encoded data has no missing clock at all. *)
Lemma clocks_ok_mfm prev ds : clocks_ok (mfm prev ds) (fun _ => False).
Proof.
  intros k Hk H1 H2 H3. unfold dbit, cbit in *. rewrite mfm_length in Hk. rewrite mfm_nth_data in H1, H3.
  rewrite mfm_nth_clock in H2 by lia. cbn [nth] in H2. rewrite H1, H3 in H2. discriminate.
Qed.

Lemma no_a1_in_data prev ds p : ~ occurs (mfm prev ds) A1_MASK A1_PAT p.
Proof.
  intros H. pose proof (clocks_ok_mfm prev ds) as HC. destruct (even_odd_split p) as [q [-> | ->]].
  - apply (a1_even _ _ _ HC) in H. tauto.
  - apply (a1_odd _ _ _ HC) in H. tauto.
Qed.
Lemma no_c2_in_data prev ds p : ~ occurs (mfm prev ds) A1_MASK C2_PAT p.
Proof.
  intros H. pose proof (clocks_ok_mfm prev ds) as HC. destruct (even_odd_split p) as [q [-> | ->]].
  - apply (c2_even _ _ _ HC) in H. tauto.
  - apply (c2_odd _ _ _ HC) in H. tauto.
Qed.

(* A match under a larger mask is a match under a smaller one. *)
Lemma occurs_mask l m1 m2 pat p : occurs l m1 pat p -> N.land m1 m2 = m2 -> occurs l m2 (N.land pat m2) p.
Proof. intros [H1 H2] E. split; auto. rewrite <- H2, <- N.land_assoc, E. reflexivity. Qed.
