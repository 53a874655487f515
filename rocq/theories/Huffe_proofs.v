(* Huffe_proofs.v - the code of copy distances. *)
From Verif Require Import Base Base_lemmas BitRing_proofs Crc_proofs Mfm_proofs Huff_model Huff_proofs Huffb_proofs Huffc_proofs Huffd_proofs Lzhuf_spec.
Import ListNotations.
Open Scope nat_scope.

Definition bool_eqb_list (a b : list bool) : bool := (length a =? length b) && forallb (fun p => Bool.eqb (fst p) (snd p)) (combine a b).
Lemma bool_eqb_list_ok a : forall b, bool_eqb_list a b = true <-> a = b.
Proof.
  unfold bool_eqb_list. induction a as [|x a IH]; intros [|y b]; cbn [length Nat.eqb combine forallb andb]; split; intros H; try reflexivity; try discriminate.
  - apply andb_prop in H. destruct H as [H1 H2]. apply andb_prop in H2. destruct H2 as [H2 H3]. cbn [fst snd] in H2. apply Bool.eqb_prop in H2. subst y. f_equal. apply IH.
    rewrite H1, H3. reflexivity.
  - injection H as -> ->. cbn [fst snd]. rewrite Bool.eqb_reflx. apply (proj2 (IH b) eq_refl).
Qed.

(* the decoding tables agree with the canonical code *)
Definition table_ok (v : N) : bool :=
  let i := N.to_nat (nth (N.to_nat v) d_code 0%N) in
  let l := nth i dist_lengths 0 in
  (i <? 64) && (nth (N.to_nat v) d_len 0 =? N.of_nat l)%N && (3 <=? l) && (l <=? 8) &&
  bool_eqb_list (firstn l (byte_bits v)) (firstn l (byte_bits (dist_start i))).
Lemma tables : forallb table_ok (map N.of_nat (seq 0 256)) = true.
Proof. vm_compute. reflexivity. Qed.
(* no codeword is a prefix of another *)
Definition starts : list (nat * list bool) := map (fun i => let l := nth i dist_lengths 0 in (i, firstn l (byte_bits (dist_start i)))) (seq 0 64).
Fixpoint is_prefix (a b : list bool) : bool :=
  match a, b with [], _ => true | x :: a, y :: b => Bool.eqb x y && is_prefix a b | _, _ => false end.
Lemma starts_free : forallb (fun p => forallb (fun q => negb (is_prefix (snd p) (snd q)) || (fst p =? fst q)) starts) starts = true.
Proof. vm_compute. reflexivity. Qed.
Lemma lengths_ok : forallb (fun i => let l := nth i dist_lengths 0 in (3 <=? l) && (l <=? 8)) (seq 0 64) = true.
Proof. vm_compute. reflexivity. Qed.

Lemma table_facts v : (v < 256)%N -> exists i l, i < 64 /\ 3 <= l <= 8 /\ l = nth i dist_lengths 0 /\
  oindex d_code (N.to_nat v) = Ok (N.of_nat i) /\ oindex d_len (N.to_nat v) = Ok (N.of_nat l) /\ firstn l (byte_bits v) = firstn l (byte_bits (dist_start i)).
Proof.
  intros Hv. pose proof (proj1 (forallb_forall _ _) tables v) as T.
  assert (Hin : In v (map N.of_nat (seq 0 256))). { apply in_map_iff. exists (N.to_nat v). split; [apply N2Nat.id|]. apply in_seq. lia. }
  specialize (T Hin). unfold table_ok in T. apply andb_prop in T. destruct T as [T T5]. apply andb_prop in T. destruct T as [T T4].
  apply andb_prop in T. destruct T as [T T3]. apply andb_prop in T. destruct T as [T1 T2].
  apply Nat.ltb_lt in T1. apply N.eqb_eq in T2. apply Nat.leb_le in T3, T4. apply bool_eqb_list_ok in T5.
  eexists _, _. split; [exact T1|]. split; [split; [exact T3|exact T4]|]. split; [reflexivity|].
  assert (L1 : length d_code = 256) by reflexivity. assert (L2 : length d_len = 256) by reflexivity.
  split; [rewrite (oindex_ok d_code _ 0%N) by lia; rewrite N2Nat.id; reflexivity|].
  split; [rewrite (oindex_ok d_len _ 0%N) by lia; rewrite T2; reflexivity|exact T5].
Qed.
Lemma length_facts i : i < 64 -> 3 <= nth i dist_lengths 0 <= 8.
Proof.
  intros Hi. pose proof (proj1 (forallb_forall _ _) lengths_ok i ltac:(apply in_seq; lia)) as T. cbv beta zeta in T.
  apply andb_prop in T. destruct T as [T3 T4]. apply Nat.leb_le in T3, T4. lia.
Qed.
Lemma is_prefix_app a b : is_prefix a (a ++ b) = true.
Proof. induction a as [|x a IH]; [reflexivity|]. cbn [app is_prefix]. rewrite Bool.eqb_reflx. exact IH. Qed.
Lemma app_prefix {A} (a b r r' : list A) : a ++ r = b ++ r' -> length a <= length b -> exists c, b = a ++ c.
Proof.
  revert b; induction a as [|x a IH]; intros b E L; [exists b; reflexivity|]. destruct b as [|y b]; [cbn [length] in L; lia|].
  cbn [app] in E. injection E as -> E. destruct (IH b E ltac:(cbn [length] in L; lia)) as [c ->]. exists c. reflexivity.
Qed.
Lemma start_unique i j r r' : i < 64 -> j < 64 ->
  firstn (nth i dist_lengths 0) (byte_bits (dist_start i)) ++ r = firstn (nth j dist_lengths 0) (byte_bits (dist_start j)) ++ r' -> i = j.
Proof.
  intros Hi Hj E.
  set (a := firstn (nth i dist_lengths 0) (byte_bits (dist_start i))) in *. set (b := firstn (nth j dist_lengths 0) (byte_bits (dist_start j))) in *.
  assert (Ia : In (i, a) starts). { unfold starts. apply in_map_iff. exists i. split; [reflexivity|apply in_seq; lia]. }
  assert (Ib : In (j, b) starts). { unfold starts. apply in_map_iff. exists j. split; [reflexivity|apply in_seq; lia]. }
  pose proof (proj1 (forallb_forall _ _) starts_free) as F.
  destruct (Nat.le_ge_cases (length a) (length b)) as [L|L].
  - destruct (app_prefix _ _ _ _ E L) as [c Ec]. pose proof (proj1 (forallb_forall _ _) (F (i, a) Ia) (j, b) Ib) as G. cbn [fst snd] in G.
    rewrite Ec, is_prefix_app in G. cbn [negb orb] in G. apply Nat.eqb_eq in G. exact G.
  - destruct (app_prefix _ _ _ _ (eq_sym E) L) as [c Ec]. pose proof (proj1 (forallb_forall _ _) (F (j, b) Ib) (i, a) Ia) as G. cbn [fst snd] in G.
    rewrite Ec, is_prefix_app in G. cbn [negb orb] in G. apply Nat.eqb_eq in G. symmetry. exact G.
Qed.

(* ---- reading bits ---- *)
Lemma get_bits_ok k : forall s ans, src_ok s ->
  (length (bits_left s) < k -> get_bits k ans s = None) /\
  (k <= length (bits_left s) -> exists s', get_bits k ans s = Some ((ans * 2 ^ N.of_nat k + bits_val (firstn k (bits_left s)))%N, s') /\
     bits_left s' = skipn k (bits_left s) /\ src_ok s').
Proof.
  induction k as [|k IH]; intros s ans Hs.
  - split; [lia|]. intros _. exists s. cbn [get_bits firstn skipn]. split; [|auto]. rewrite N.mul_1_r. change (bits_val []) with 0%N. rewrite N.add_0_r. reflexivity.
  - cbn [get_bits]. pose proof (get_bit_ok s Hs) as G. destruct (bits_left s) as [|b r] eqn:E.
    + rewrite G. split; [reflexivity|]. cbn [length]. lia.
    + destruct G as [s' [G1 [G2 G3]]]. rewrite G1. destruct (IH s' (ans * 2 + b2N b)%N G3) as [I1 I2]. rewrite G2 in I1, I2. split.
      * intros L. apply I1. cbn [length] in L. lia.
      * intros L. cbn [length] in L. destruct (I2 ltac:(lia)) as [s2 [J1 [J2 J3]]]. exists s2. rewrite J1. cbn [firstn skipn]. split; [|auto].
        f_equal. f_equal. rewrite bits_val_cons. rewrite firstn_length, Nat.min_l by lia.
        rewrite Nat2N.inj_succ, N.pow_succ_r'. destruct b; cbn [b2N]; nia.
Qed.

Lemma lor_low i l : (l < 64)%N -> N.lor (i * 64) l = (i * 64 + l)%N.
Proof.
  intros Hl. change 64%N with (2 ^ 6)%N in *. rewrite <- N.shiftl_mul_pow2.
  rewrite <- N.lxor_lor, <- N.add_nocarry_lxor; [reflexivity| |].
  all: apply N.bits_inj; intros k; rewrite N.land_spec, N.bits_0; destruct (N.lt_ge_cases k 6) as [C|C];
    [rewrite N.shiftl_spec_low by exact C; reflexivity|].
  all: replace (N.testbit l k) with false; [apply andb_false_r|]; symmetry; destruct (N.eq_dec l 0) as [->|]; [apply N.bits_0|];
    apply N.bits_above_log2; apply N.log2_lt_pow2; try lia; eapply N.lt_le_trans; [exact Hl|apply N.pow_le_mono_r; lia].
Qed.

Lemma dist_code_len d : (d < 4096)%N -> length (dist_code d) = nth (N.to_nat (d / 64)) dist_lengths 0 + 6.
Proof.
  intros Hd. unfold dist_code. rewrite app_length, firstn_length, skipn_length.
  assert (Hi : N.to_nat (d / 64) < 64). { assert (d / 64 < 64)%N by (apply N.div_lt_upper_bound; lia). lia. }
  pose proof (length_facts _ Hi). cbn [byte_bits length]. lia.
Qed.
Lemma low6 l : length l = 6 -> skipn 2 (byte_bits (bits_val l)) = l.
Proof.
  intros L. destruct l as [|a [|b [|c [|d [|e [|g [|]]]]]]]; try discriminate. destruct a, b, c, d, e, g; vm_compute; reflexivity.
Qed.
Lemma decode_position_spec s : src_ok s ->
  (exists d s', decode_position s = Ok (Some (d, s')) /\ (d < 4096)%N /\ bits_left s = dist_code d ++ bits_left s' /\ src_ok s') \/
  (decode_position s = Ok None /\ forall d r, (d < 4096)%N -> bits_left s <> dist_code d ++ r).
Proof.
  intros Hs. unfold decode_position. destruct (get_bits_ok 8 s 0 Hs) as [G1 G2].
  destruct (Nat.lt_ge_cases (length (bits_left s)) 8) as [L|L].
  - right. rewrite (G1 L). split; [reflexivity|]. intros d r Hd E. rewrite E, app_length, (dist_code_len d Hd) in L.
    assert (Hi : N.to_nat (d / 64) < 64). { assert (d / 64 < 64)%N by (apply N.div_lt_upper_bound; lia). lia. }
    pose proof (length_facts _ Hi). lia.
  - destruct (G2 L) as [s1 [E1 [B1 S1]]]. rewrite E1. rewrite N.mul_0_l, N.add_0_l.
    set (b8 := firstn 8 (bits_left s)) in *. assert (L8 : length b8 = 8) by (unfold b8; rewrite firstn_length; lia).
    assert (Hv : (bits_val b8 < 256)%N) by (pose proof (bits_val_lt b8) as X; rewrite L8 in X; exact X).
    destruct (table_facts _ Hv) as [i [l [Hi [Hl [El [T1 [T2 T3]]]]]]]. rewrite T1, T2. cbn [obind].
    destruct (N.ltb_spec (N.of_nat l) 2); [lia|].
    rewrite byte_bits_bits_val in T3 by exact L8.
    replace (N.to_nat (N.of_nat l - 2)) with (l - 2) by lia.
    destruct (get_bits_ok (l - 2) s1 (bits_val b8) S1) as [K1 K2].
    destruct (Nat.lt_ge_cases (length (bits_left s1)) (l - 2)) as [L2|L2].
    + right. rewrite (K1 L2). split; [reflexivity|]. intros d r Hd E.
      assert (Hi2 : N.to_nat (d / 64) < 64). { assert (d / 64 < 64)%N by (apply N.div_lt_upper_bound; lia). lia. }
      assert (X : i = N.to_nat (d / 64)).
      { apply (start_unique i _ (skipn l b8 ++ skipn 8 (bits_left s)) (skipn 2 (byte_bits (d mod 64)) ++ r) Hi Hi2).
        rewrite <- El, <- T3, app_assoc, firstn_skipn. unfold b8. rewrite firstn_skipn, E. unfold dist_code. rewrite <- app_assoc. reflexivity. }
      pose proof (dist_code_len d Hd) as Ld. rewrite <- X, <- El in Ld. rewrite B1, skipn_length, E, app_length in L2. lia.
    + left. destruct (K2 L2) as [s2 [E2 [B2 S2]]]. rewrite E2. rewrite <- B1 in *.
      set (ex := firstn (l - 2) (bits_left s1)) in *. assert (Lex : length ex = l - 2) by (unfold ex; rewrite firstn_length; lia).
      set (low := skipn l b8 ++ ex). assert (Ll : length low = 6) by (unfold low; rewrite app_length, skipn_length; lia).
      assert (Hlow : (bits_val low < 64)%N) by (pose proof (bits_val_lt low) as X; rewrite Ll in X; exact X).
      assert (Ev : (bits_val b8 * 2 ^ N.of_nat (l - 2) + bits_val ex)%N = (bits_val (firstn l b8) * 64 + bits_val low)%N).
      { rewrite <- Lex, <- bits_val_app. rewrite <- (firstn_skipn l b8) at 1. rewrite <- app_assoc. fold low. rewrite bits_val_app, Ll. reflexivity. }
      assert (Eland : N.land (as_u16 (bits_val b8 * 2 ^ N.of_nat (l - 2) + bits_val ex)) 0x3f = bits_val low).
      { assert (Hbig : (bits_val (b8 ++ ex) < 2 ^ 14)%N).
        { pose proof (bits_val_lt (b8 ++ ex)) as X. rewrite app_length, L8, Lex in X. eapply N.lt_le_trans; [exact X|]. apply N.pow_le_mono_r; lia. }
        rewrite bits_val_app, Lex in Hbig. unfold as_u16. rewrite N.mod_small by (change (2 ^ 14)%N with 16384%N in Hbig; lia).
        change 0x3f%N with (N.ones 6). rewrite N.land_ones, Ev. change (2 ^ 6)%N with 64%N. rewrite N.add_comm, N.mod_add by lia. apply N.mod_small. exact Hlow. }
      rewrite Eland, (lor_low _ _ Hlow).
      eexists _, s2. split; [reflexivity|]. split; [lia|]. split; [|exact S2].
      assert (Ed : ((N.of_nat i * 64 + bits_val low) / 64)%N = N.of_nat i). { rewrite N.div_add_l by lia. rewrite (N.div_small _ _ Hlow). lia. }
      assert (Em : ((N.of_nat i * 64 + bits_val low) mod 64)%N = bits_val low). { rewrite N.add_comm, N.mod_add by lia. apply N.mod_small. exact Hlow. }
      unfold dist_code. rewrite Ed, Em, Nat2N.id, <- El, <- T3, (low6 low Ll), B2. unfold low.
      rewrite <- !app_assoc. unfold ex. rewrite firstn_skipn, app_assoc, firstn_skipn, B1. unfold b8. rewrite firstn_skipn. reflexivity.
Qed.
Lemma dist_code_prefix d d' r r' : (d < 4096)%N -> (d' < 4096)%N -> dist_code d ++ r = dist_code d' ++ r' -> d = d' /\ r = r'.
Proof.
  intros Hd Hd' E.
  assert (Hi : N.to_nat (d / 64) < 64). { assert (d / 64 < 64)%N by (apply N.div_lt_upper_bound; lia). lia. }
  assert (Hi' : N.to_nat (d' / 64) < 64). { assert (d' / 64 < 64)%N by (apply N.div_lt_upper_bound; lia). lia. }
  assert (X : N.to_nat (d / 64) = N.to_nat (d' / 64)).
  { unfold dist_code in E. rewrite <- !app_assoc in E. exact (start_unique _ _ _ _ Hi Hi' E). }
  unfold dist_code in E. rewrite X in E. rewrite <- !app_assoc in E. apply app_inv_head in E.
  assert (Y : (d mod 64 = d' mod 64)%N /\ r = r').
  { assert (A : (d mod 64 < 64)%N) by (apply N.mod_lt; lia). assert (A' : (d' mod 64 < 64)%N) by (apply N.mod_lt; lia).
    assert (E1 : skipn 2 (byte_bits (d mod 64)) = skipn 2 (byte_bits (d' mod 64))) by (apply (f_equal (firstn 6)) in E; exact E).
    split; [|rewrite E1 in E; apply app_inv_head in E; exact E].
    assert (B : forall v, (v < 64)%N -> bits_val (skipn 2 (byte_bits v)) = v).
    { intros v Hv. rewrite <- (bits_val_byte_bits v) at 2 by lia. change (byte_bits v) with ([N.testbit v 7; N.testbit v 6] ++ skipn 2 (byte_bits v)) at 2.
      rewrite bits_val_app. assert (Z : forall k, (6 <= k)%N -> N.testbit v k = false).
      { intros k Hk. destruct (N.eq_dec v 0) as [->|]; [apply N.bits_0|]. apply N.bits_above_log2, N.log2_lt_pow2; [lia|]. eapply N.lt_le_trans; [exact Hv|]. change 64%N with (2 ^ 6)%N. apply N.pow_le_mono_r; lia. }
      rewrite !Z by lia. reflexivity. }
    rewrite <- (B _ A), <- (B _ A'), E1. reflexivity. }
  destruct Y as [Y ->]. split; [|reflexivity]. rewrite (N.div_mod d 64), (N.div_mod d' 64) by lia. lia.
Qed.
