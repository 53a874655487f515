(* Huffenc_proofs.v - the coder writes the codewords the decoder reads. *)
From Coq Require Import ZArith.
From Verif Require Import Base Base_lemmas BitRing_proofs Crc_proofs Mfm_proofs Huff_model Huff_proofs Huffb_proofs Huffc_proofs Huffd_proofs Huffe_proofs Lzhuf_spec.
Import ListNotations.
Open Scope nat_scope.

(* ---- bits to bytes ---- *)
Definition pack (l : list bool) : list N := bv_to_bytes (length l) l.
Lemma bv_fuel f : forall g l, length l <= f -> length l <= g -> bv_to_bytes f l = bv_to_bytes g l.
Proof.
  induction f as [|f IH]; intros [|g] [|b l] Hf Hg; cbn [length] in *; try lia; try reflexivity.
  cbn [bv_to_bytes]. f_equal. apply IH; rewrite skipn_length; cbn [length]; lia.
Qed.
Lemma pack_nil : pack [] = [].
Proof. reflexivity. Qed.
Lemma pack_step a l : length a = 8 -> pack (a ++ l) = bits_val a :: pack l.
Proof.
  intros La. unfold pack. rewrite app_length, La. remember (a ++ l) as c eqn:Ec. assert (Hc : c <> []) by (rewrite Ec; destruct a; [discriminate|discriminate]).
  change (8 + length l) with (S (7 + length l)). remember (7 + length l) as f eqn:Ef. cbn [bv_to_bytes]. destruct c as [|b c']; [congruence|]. rewrite Ec. f_equal.
  - rewrite <- app_assoc, firstn_app, La. rewrite firstn_all2 by lia. rewrite Nat.sub_diag, firstn_O, app_nil_r. reflexivity.
  - rewrite skipn_app, La, Nat.sub_diag, skipn_O. rewrite skipn_all2 by lia. cbn [app]. apply bv_fuel; lia.
Qed.
Lemma pack_last l : 0 < length l -> length l <= 8 -> pack l = [bits_val (l ++ repeat false (8 - length l))].
Proof.
  intros H0 H8. unfold pack. destruct l as [|b l]; [cbn [length] in H0; lia|]. remember (b :: l) as c eqn:Ec. destruct (length c) as [|k] eqn:El; [lia|].
  rewrite Ec at 1. cbn [bv_to_bytes]. rewrite <- Ec. rewrite skipn_all2 by lia.
  replace (bv_to_bytes k []) with (@nil N) by (destruct k; reflexivity). f_equal. f_equal.
  rewrite firstn_app, El. rewrite firstn_all2 by lia. f_equal.
  assert (E7 : repeat false 7 = repeat false (8 - S k) ++ repeat false (7 - (8 - S k))) by (rewrite <- repeat_app; f_equal; lia).
  rewrite E7, firstn_app, repeat_length, firstn_all2 by (rewrite repeat_length; lia).
  replace (8 - S k - (8 - S k)) with 0 by lia. rewrite firstn_O, app_nil_r. reflexivity.
Qed.
Lemma pack_ind (P : list bool -> Prop) : P [] -> (forall l, 0 < length l -> length l < 8 -> P l) ->
  (forall a l, length a = 8 -> P l -> P (a ++ l)) -> forall l, P l.
Proof.
  intros H0 Hs Hr l. remember (length l) as k eqn:E. assert (Hk : length l <= k) by lia. clear E. revert l Hk.
  induction k as [|k IH]; intros l Hk; [destruct l; [exact H0|cbn [length] in Hk; lia]|].
  destruct (Nat.lt_ge_cases (length l) 8) as [C|C].
  - destruct (Nat.eq_dec (length l) 0) as [Z|Z]; [destruct l; [exact H0|discriminate]|apply Hs; lia].
  - rewrite <- (firstn_skipn 8 l). apply Hr; [rewrite firstn_length; lia|]. apply IH. rewrite skipn_length. lia.
Qed.
Lemma pack_bits l : exists k, flat_map byte_bits (pack l) = l ++ repeat false k /\ k < 8 /\ length l + k = 8 * length (pack l).
Proof.
  induction l as [|l H0 H8|a l La IH] using pack_ind.
  - exists 0. split; [reflexivity|]. split; [lia|reflexivity].
  - exists (8 - length l). rewrite pack_last by lia. cbn [flat_map]. rewrite app_nil_r, byte_bits_bits_val by (rewrite app_length, repeat_length; lia).
    split; [reflexivity|]. cbn [length]. lia.
  - destruct IH as [k [E1 [E2 E3]]]. exists k. rewrite (pack_step a l La). cbn [flat_map]. rewrite E1, byte_bits_bits_val by exact La.
    split; [apply app_assoc|]. split; [exact E2|]. rewrite app_length. cbn [length]. lia.
Qed.
Lemma pack_app a b : length a mod 8 = 0 -> pack (a ++ b) = pack a ++ pack b.
Proof.
  induction a as [|a H0 H8|c a Lc IH] using pack_ind; intros E.
  - reflexivity.
  - rewrite Nat.mod_small in E by exact H8. lia.
  - rewrite <- app_assoc, (pack_step c (a ++ b) Lc), (pack_step c a Lc). cbn [app]. f_equal. apply IH. rewrite app_length, Lc in E.
    replace (8 + length a) with (length a + 1 * 8) in E by lia. rewrite Nat.mod_add in E by lia. exact E.
Qed.
Lemma pack_length l : length (pack l) = (length l + 7) / 8.
Proof.
  destruct (pack_bits l) as [k [_ [H1 H2]]]. apply (Nat.div_unique _ 8 _ (7 - k)); lia.
Qed.
Lemma pack_bytes l : bytes_ok (pack l) = true.
Proof.
  induction l as [|l H0 H8|a l La IH] using pack_ind.
  - reflexivity.
  - rewrite pack_last by lia. cbn [bytes_ok forallb]. rewrite andb_true_r. apply N.ltb_lt.
    pose proof (bits_val_lt (l ++ repeat false (8 - length l))) as X. rewrite app_length, repeat_length in X.
    replace (length l + (8 - length l)) with 8 in X by lia. exact X.
  - rewrite (pack_step a l La). cbn [bytes_ok forallb]. apply andb_true_intro. split; [|exact IH]. apply N.ltb_lt. pose proof (bits_val_lt a) as X. rewrite La in X. exact X.
Qed.

(* the coder has written `all` *)
Definition written (all : list bool) (bits : list bool) (w : writer) : Prop :=
  w_buf w = pack all /\ w_pos w = length all / 8 /\ bits = skipn (8 * (length all / 8)) all.
Lemma written_nil : written [] [] (mkW [] 0).
Proof. split; [reflexivity|]. split; reflexivity. Qed.
Lemma put_code_ok all num code bits w : written all bits w ->
  let (bits', w') := put_code num code bits w in written (all ++ code_bits num code) bits' w'.
Proof.
  intros [H1 [H2 H3]]. unfold put_code. set (v := code_bits num code). set (q := length all / 8) in *.
  pose proof (Nat.div_mod (length all) 8 ltac:(lia)) as D. pose proof (Nat.mod_upper_bound (length all) 8 ltac:(lia)) as U. fold q in D.
  set (a := firstn (8 * q) all). assert (La : length a = 8 * q) by (unfold a; rewrite firstn_length; lia).
  assert (Ea : all = a ++ bits) by (rewrite H3; unfold a; rewrite firstn_skipn; reflexivity).
  assert (Ma : length a mod 8 = 0) by (rewrite La, Nat.mul_comm; apply Nat.mod_mul; lia).
  assert (Lpa : length (pack a) = q). { rewrite pack_length, La. symmetry. apply (Nat.div_unique _ 8 _ 7); lia. }
  fold (pack (bits ++ v)).
  assert (Hbuf : w_buf (w_write w (pack (bits ++ v))) = pack (all ++ v)).
  { unfold w_write. cbn [w_buf]. rewrite H1, H2. rewrite Ea at 1 2. rewrite !(pack_app a bits Ma).
    rewrite firstn_app, Lpa, Nat.sub_diag, firstn_O, app_nil_r, firstn_all2 by lia.
    rewrite (skipn_all2 (pack a ++ pack bits)).
    - rewrite app_nil_r, Ea, <- app_assoc, (pack_app a _ Ma). reflexivity.
    - rewrite app_length, Lpa, !pack_length. apply Nat.add_le_mono_l. apply Nat.div_le_mono; [lia|]. rewrite app_length. lia. }
  assert (Hpos : w_pos (w_write w (pack (bits ++ v))) = q + (length (bits ++ v) + 7) / 8) by (unfold w_write; cbn [w_pos]; rewrite H2, pack_length; reflexivity).
  assert (Lall : length (all ++ v) = 8 * q + length (bits ++ v)) by (rewrite Ea at 1; rewrite !app_length, La; lia).
  assert (Dall : length (all ++ v) / 8 = q + length (bits ++ v) / 8). { rewrite Lall, Nat.add_comm, (Nat.mul_comm 8), Nat.div_add by lia. apply Nat.add_comm. }
  pose proof (Nat.div_mod (length (bits ++ v)) 8 ltac:(lia)) as D2. pose proof (Nat.mod_upper_bound (length (bits ++ v)) 8 ltac:(lia)) as U2.
  destruct (Nat.eqb_spec (length (bits ++ v) mod 8) 0) as [Z|Z].
  - split; [exact Hbuf|]. rewrite Dall. split.
    + rewrite Hpos. f_equal. symmetry. apply (Nat.div_unique _ 8 _ 7); lia.
    + symmetry. apply skipn_all2. rewrite Lall. lia.
  - split; [exact Hbuf|]. rewrite Dall. split.
    + cbn [w_pos]. rewrite Hpos. assert (E : (length (bits ++ v) + 7) / 8 = length (bits ++ v) / 8 + 1); [|lia].
      symmetry. apply (Nat.div_unique _ 8 _ (length (bits ++ v) mod 8 - 1)); lia.
    + assert (Sk : forall m x, skipn (8 * (q + m)) (a ++ x) = skipn (8 * m) x).
      { intros m x. rewrite skipn_app, La, (skipn_all2 a) by lia. cbn [app]. f_equal. lia. }
      rewrite Ea, <- app_assoc. symmetry. apply Sk.
Qed.

(* ---- the bits of a code ---- *)
Lemma code_bits_val v : forall r, length v <= 16 -> (r < 2 ^ N.of_nat (16 - length v))%N ->
  code_bits (length v) (bits_val v * 2 ^ N.of_nat (16 - length v) + r) = v.
Proof.
  induction v as [|b v IH]; intros r L R; [reflexivity|]. cbn [length] in *. cbn [code_bits].
  set (k := N.of_nat (16 - S (length v))) in *. assert (K : N.of_nat (16 - length v) = N.succ k) by (unfold k; lia).
  assert (P : (2 ^ N.of_nat (length v) * 2 ^ k = 0x8000)%N). { rewrite <- N.pow_add_r. replace (N.of_nat (length v) + k)%N with 15%N by (unfold k; lia). reflexivity. }
  pose proof (bits_val_lt v) as B. rewrite bits_val_cons.
  assert (X : (bits_val v * 2 ^ k + r < 0x8000)%N). { rewrite <- P. nia. }
  assert (Eq : (((if b then 2 ^ N.of_nat (length v) else 0) + bits_val v) * 2 ^ k + r = (if b then 0x8000 else 0) + (bits_val v * 2 ^ k + r))%N).
  { destruct b; nia. }
  rewrite Eq. f_equal.
  - rewrite N.testbit_odd, N.shiftr_div_pow2. change (2 ^ 15)%N with 0x8000%N. destruct b.
    + replace (0x8000 + (bits_val v * 2 ^ k + r))%N with ((bits_val v * 2 ^ k + r) + 1 * 0x8000)%N by lia. rewrite N.div_add, N.div_small by lia. reflexivity.
    + rewrite N.add_0_l, N.div_small by exact X. reflexivity.
  - assert (Es : as_u16 ((((if b then 0x8000 else 0) + (bits_val v * 2 ^ k + r)) * 2)%N) = (bits_val v * 2 ^ N.of_nat (16 - length v) + r * 2)%N).
    { unfold as_u16. rewrite K, N.pow_succ_r'. destruct b.
      - replace ((0x8000 + (bits_val v * 2 ^ k + r)) * 2)%N with ((bits_val v * 2 ^ k + r) * 2 + 1 * 65536)%N by lia. rewrite N.mod_add, N.mod_small by lia. nia.
      - rewrite N.add_0_l, N.mod_small by lia. nia. }
    rewrite Es. apply IH; [lia|]. rewrite K, N.pow_succ_r'. lia.
Qed.

(* ---- from a leaf to the root ---- *)
Lemma leaf_inv z y w : codeword (Leaf z) y w -> y = z /\ w = [].
Proof. intros C. inversion C. auto. Qed.
Lemma node_inv a b y w : codeword (Node a b) y w -> exists w', (w = false :: w' /\ codeword a y w') \/ (w = true :: w' /\ codeword b y w').
Proof. intros C. inversion C; eauto. Qed.
Section Path.
Variables (n : nat) (t : htree).
Hypothesis V : valid n t.
Notation nc := (2 * n - 1).
Notation root := (2 * n - 2).
(* following the bits from node i leads to node j *)
Inductive path (i : nat) : list bool -> nat -> Prop :=
| path_nil : path i [] i
| path_left u j : path i u j -> (h_son t).[j] < nc -> path i (u ++ [false]) (h_son t).[j]
| path_right u j : path i u j -> (h_son t).[j] < nc -> path i (u ++ [true]) ((h_son t).[j] + 1).
Lemma path_step i (b : bool) w j : i < nc -> (h_son t).[i] < nc -> path ((h_son t).[i] + (if b then 1 else 0)) w j -> path i (b :: w) j.
Proof.
  intros Hi Hs P. induction P as [|u j P IH Hj|u j P IH Hj].
  - destruct b; [apply (path_right i [] i (path_nil i) Hs)|rewrite Nat.add_0_r; apply (path_left i [] i (path_nil i) Hs)].
  - change (b :: u ++ [false]) with ((b :: u) ++ [false]). apply path_left; assumption.
  - change (b :: u ++ [true]) with ((b :: u) ++ [true]). apply path_right; assumption.
Qed.
Lemma codeword_path : forall i y w, i < nc -> codeword (tr n (h_son t) i) y w -> y < n -> path i w (h_map t).[y].
Proof.
  pose proof (v_ok _ _ V) as O. induction i as [i IH] using lt_wf_ind. intros y w Hi C Hy.
  rewrite (tr_eq _ _ _ _ _ _ O i Hi) in C. destruct (Nat.leb_spec nc (h_son t).[i]) as [L|L].
  - destruct (ok_leaf _ _ _ _ _ _ O i Hi L) as [_ E]. destruct (leaf_inv _ _ _ C) as [-> ->]. rewrite E. constructor.
  - destruct (ok_inner _ _ _ _ _ _ O i Hi L) as [L2 _]. destruct (node_inv _ _ _ _ C) as [w' [[-> C']|[-> C']]].
    + apply path_step; [exact Hi|exact L|]. rewrite Nat.add_0_r. apply IH; [lia|lia|assumption|exact Hy].
    + apply path_step; [exact Hi|exact L|]. apply IH; [lia|lia|assumption|exact Hy].
Qed.
Lemma path_in i u j : path i u j -> i < nc -> j < nc /\ j <= i /\ (u <> [] -> j < i).
Proof.
  pose proof (v_ok _ _ V) as O. induction 1 as [|u j P IH Hj|u j P IH Hj]; intros Hi.
  - split; [exact Hi|]. split; [lia|congruence].
  - destruct (IH Hi) as [A [B _]]. destruct (ok_inner _ _ _ _ _ _ O j A Hj) as [L2 _]. split; [lia|]. split; [lia|]. intros _. lia.
  - destruct (IH Hi) as [A [B _]]. destruct (ok_inner _ _ _ _ _ _ O j A Hj) as [L2 _]. split; [lia|]. split; [lia|]. intros _. lia.
Qed.
Lemma walk_ok fuel : forall u j v, path root u j -> u <> [] -> length u <= fuel -> length (u ++ v) <= 16 ->
  encode_walk fuel t j (length v) (bits_val v * 2 ^ N.of_nat (16 - length v)) = Ok (length (u ++ v), (bits_val (u ++ v) * 2 ^ N.of_nat (16 - length (u ++ v)))%N).
Proof.
  pose proof (v_ok _ _ V) as O. pose proof (ok_n _ _ _ _ _ _ O) as Hn. pose proof (v_n _ _ V) as En.
  induction fuel as [|fuel IH]; intros u j v P Hu Hf L16; [destruct u; [congruence|cbn [length] in Hf; lia]|].
  assert (Q : exists u' b i, u = u' ++ [b] /\ j = (h_son t).[i] + (if b then 1 else 0) /\ path root u' i /\ (h_son t).[i] < nc).
  { inversion P as [|u0 j0 P0 H0|u0 j0 P0 H0]; subst; [congruence| |].
    - exists u0, false, j0. split; [reflexivity|]. split; [lia|]. split; assumption.
    - exists u0, true, j0. split; [reflexivity|]. split; [lia|]. split; assumption. }
  destruct Q as [u' [b [i [-> [Ej [P' Hi]]]]]]. destruct (path_in root u' i P' ltac:(lia)) as [Li [Li2 Li3]].
  destruct (ok_inner _ _ _ _ _ _ O i Li Hi) as [L2 [Ev [Pl Pr]]].
  cbn [encode_walk].
  assert (Epar : oindex (h_parent t) j = Ok i). { rewrite (oindex_ok _ _ 0) by (rewrite (ok_lp _ _ _ _ _ _ O), Ej; destruct b; lia). f_equal. rewrite Ej. destruct b; [exact Pr|rewrite Nat.add_0_r; exact Pl]. }
  rewrite Epar. cbn [obind].
  assert (Eodd : N.of_nat (j mod 2) = b2N b). { apply Nat.even_spec in Ev. destruct Ev as [q Eq]. rewrite Ej, Eq. destruct b; cbn [b2N].
    - rewrite Nat.add_comm, Nat.mul_comm, Nat.mod_add by lia. reflexivity.
    - rewrite Nat.add_0_r, Nat.mul_comm, Nat.mod_mul by lia. reflexivity. }
  rewrite <- app_assoc in *. cbn [app] in *.
  assert (Lv : length (b :: v) <= 16) by (rewrite app_length in L16; lia). cbn [length] in Lv.
  assert (Ecode : (bits_val v * 2 ^ N.of_nat (16 - length v) / 2 + N.of_nat (j mod 2) * 0x8000)%N = (bits_val (b :: v) * 2 ^ N.of_nat (16 - length (b :: v)))%N).
  { rewrite Eodd, bits_val_cons. cbn [length]. set (k := N.of_nat (16 - S (length v))). replace (N.of_nat (16 - length v)) with (N.succ k) by (unfold k; lia).
    rewrite N.pow_succ_r'. replace (bits_val v * (2 * 2 ^ k))%N with (bits_val v * 2 ^ k * 2)%N by lia. rewrite N.div_mul by lia.
    assert (Pw : (2 ^ N.of_nat (length v) * 2 ^ k = 0x8000)%N). { rewrite <- N.pow_add_r. replace (N.of_nat (length v) + k)%N with 15%N by (unfold k; lia). reflexivity. }
    destruct b; cbn [b2N]; nia. }
  rewrite Ecode. unfold h_root. rewrite En. destruct (Nat.eqb_spec i root) as [Er|Er].
  - assert (u' = []). { destruct u' as [|z u']; [reflexivity|]. assert (i < root) by (apply Li3; discriminate). lia. }
    subst u'. reflexivity.
  - assert (Hu' : u' <> []). { intros ->. inversion P' as [Ei| |]; [congruence| |]; match goal with H : ?a ++ [_] = [] |- _ => destruct a; discriminate end. }
    change (S (length v)) with (length (b :: v)). rewrite (IH u' i (b :: v) P' Hu').
    + reflexivity.
    + rewrite app_length in Hf. cbn [length] in Hf. lia.
    + exact L16.
Qed.
End Path.

(* ---- characters and positions ---- *)
Lemma encode_char_ok n s y w all : valid n (co_tree s) -> codeword (tree_of n (co_tree s)) y w -> length w <= 16 -> w <> [] ->
  written all (co_bits s) (co_out s) ->
  exists s', encode_char s y = Ok s' /\ ht_update (co_tree s) y = Ok (co_tree s') /\ valid n (co_tree s') /\ written (all ++ w) (co_bits s') (co_out s').
Proof.
  intros V C L16 W0 Hw. pose proof (tree_symbols _ _ _ _ V C) as Hy. pose proof (v_ok _ _ V) as O. pose proof (ok_n _ _ _ _ _ _ O) as Hn.
  unfold encode_char. rewrite (oindex_ok _ _ 0) by (rewrite (ok_lm _ _ _ _ _ _ O); exact Hy). cbn [obind].
  assert (P := codeword_path n (co_tree s) V (2 * n - 2) y w ltac:(lia) C Hy).
  assert (Lw : length w <= 2 * n - 2).
  { clear - P V Hn. assert (G : forall u j, path n (co_tree s) (2 * n - 2) u j -> length u + j <= 2 * n - 2).
    { induction 1 as [|u j P2 IH Hj|u j P2 IH Hj]; [cbn [length]; lia| |].
      - destruct (path_in n _ V _ _ _ P2 ltac:(lia)) as [A [B _]]. destruct (ok_inner _ _ _ _ _ _ (v_ok _ _ V) j A Hj) as [L2 _]. rewrite app_length. cbn [length]. lia.
      - destruct (path_in n _ V _ _ _ P2 ltac:(lia)) as [A [B _]]. destruct (ok_inner _ _ _ _ _ _ (v_ok _ _ V) j A Hj) as [L2 _]. rewrite app_length. cbn [length]. lia. }
    specialize (G _ _ P). lia. }
  unfold h_count. rewrite (v_n _ _ V).
  pose proof (walk_ok n (co_tree s) V (2 * n - 1) w _ [] P W0 ltac:(lia) ltac:(rewrite app_nil_r; exact L16)) as E.
  rewrite app_nil_r in E. change (bits_val [] * 2 ^ N.of_nat (16 - length []))%N with 0%N in E. change (length []) with 0 in E. rewrite E. cbn [obind].
  pose proof (put_code_ok all (length w) (bits_val w * 2 ^ N.of_nat (16 - length w)) (co_bits s) (co_out s) Hw) as PC.
  destruct (put_code _ _ _ _) as [bits w']. destruct (update_ok n (co_tree s) y V Hy) as [t' [U1 [U2 _]]]. rewrite U1. cbn [obind].
  eexists. split; [reflexivity|]. cbn [co_tree co_bits co_out]. split; [reflexivity|]. split; [exact U2|].
  rewrite <- (N.add_0_r (bits_val w * _)) in PC. rewrite (code_bits_val w 0 L16) in PC; [exact PC|]. apply N.neq_0_lt_0, N.pow_nonzero. lia.
Qed.
Definition p_table_ok (i : nat) : bool :=
  (nth i p_len 0%N =? N.of_nat (nth i dist_lengths O))%N && bool_eqb_list (code_bits (nth i dist_lengths 0) (nth i p_code 0%N * 256)%N) (firstn (nth i dist_lengths 0) (byte_bits (dist_start i))).
Lemma p_tables : forallb p_table_ok (seq 0 64) = true.
Proof. vm_compute. reflexivity. Qed.
Lemma low_bits : forallb (fun c => bool_eqb_list (code_bits 6 (as_u16 (c * 1024))) (skipn 2 (byte_bits c))) (map N.of_nat (seq 0 64)) = true.
Proof. vm_compute. reflexivity. Qed.
Lemma encode_position_ok s d all : (d < 4096)%N -> written all (co_bits s) (co_out s) ->
  exists s', encode_position s d = Ok s' /\ co_tree s' = co_tree s /\ written (all ++ dist_code d) (co_bits s') (co_out s').
Proof.
  intros Hd Hw. unfold encode_position. set (i := N.to_nat (d / 64)).
  assert (Hi : i < 64). { unfold i. assert (d / 64 < 64)%N by (apply N.div_lt_upper_bound; lia). lia. }
  pose proof (proj1 (forallb_forall _ _) p_tables i ltac:(apply in_seq; lia)) as T. unfold p_table_ok in T. apply andb_prop in T. destruct T as [T1 T2].
  apply N.eqb_eq in T1. apply bool_eqb_list_ok in T2.
  assert (L1 : length p_len = 64) by reflexivity. assert (L2 : length p_code = 64) by reflexivity.
  rewrite (oindex_ok p_len _ 0%N) by lia. rewrite (oindex_ok p_code _ 0%N) by lia. cbn [obind]. rewrite T1, Nat2N.id.
  pose proof (put_code_ok all (nth i dist_lengths 0) (nth i p_code 0%N * 256) (co_bits s) (co_out s) Hw) as P1.
  destruct (put_code _ _ _ _) as [b1 w1]. rewrite T2 in P1.
  change 0x3f%N with (N.ones 6). rewrite N.land_ones. change (2 ^ 6)%N with 64%N.
  assert (Hm : (d mod 64 < 64)%N) by (apply N.mod_lt; lia).
  pose proof (proj1 (forallb_forall _ _) low_bits (d mod 64)%N) as T. cbv beta in T.
  assert (Hin : In (d mod 64)%N (map N.of_nat (seq 0 64))). { apply in_map_iff. exists (N.to_nat (d mod 64)). split; [apply N2Nat.id|]. apply in_seq. lia. }
  specialize (T Hin). apply bool_eqb_list_ok in T.
  pose proof (put_code_ok _ 6 (as_u16 (d mod 64 * 1024)) b1 w1 P1) as P2. destruct (put_code 6 _ _ _) as [b2 w2].
  eexists. split; [reflexivity|]. cbn [co_tree co_bits co_out]. split; [reflexivity|]. rewrite T in P2. unfold dist_code. fold i. rewrite app_assoc. exact P2.
Qed.
