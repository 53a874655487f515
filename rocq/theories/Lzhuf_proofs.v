(* Lzhuf_proofs.v - the ring buffer holds the end of the history; expand follows the coded tokens. *)
From Coq Require Import ZArith.
From Verif Require Import Base Base_lemmas BitRing_proofs Crc_proofs Huff_model Huff_proofs Huffb_proofs Huffc_proofs Huffd_proofs Huffe_proofs Lzhuf_model Lzhuf_spec.
Import ListNotations.
Open Scope nat_scope.

Fixpoint copyg (pre : list N) (k back : nat) (o : list N) : list N :=
  match k with O => o | S k => copyg pre k back (o ++ [nth (length (pre ++ o) - back) (pre ++ o) 0%N]) end.
Section Ring.
Variables (W off : nat).
Hypothesis HW : 0 < W.
Record window (H : list N) (r : ring) : Prop := mkWin {
  w_len : length (rb_buf r) = W;
  w_long : W <= length H;
  w_at : rb_pos r = (length H + off) mod W;
  w_val : forall h, length H - W <= h -> h < length H -> nth ((h + off) mod W) (rb_buf r) 0%N = nth h H 0%N }.
Lemma mod_window a b : a mod W = b mod W -> a < b + W -> b < a + W -> a = b.
Proof.
  intros E L1 L2. pose proof (Nat.div_mod a W ltac:(lia)) as A. pose proof (Nat.div_mod b W ltac:(lia)) as B.
  pose proof (Nat.mod_upper_bound a W ltac:(lia)) as U. rewrite E in A, U.
  assert (a / W = b / W); [|nia]. assert (~ (a / W < b / W)) by nia. assert (~ (b / W < a / W)) by nia. lia.
Qed.
Lemma index_zero r H : window H r -> rb_index r 0 = rb_pos r.
Proof.
  intros V. unfold rb_index. rewrite (w_len _ _ V), Z.add_0_r, <- Nat2Z.inj_mod, Nat2Z.id. apply Nat.mod_small.
  rewrite (w_at _ _ V). apply Nat.mod_upper_bound. lia.
Qed.
Lemma index_back r H back : window H r -> 1 <= back <= W -> rb_index r (- Z.of_nat back) = (length H - back + off) mod W.
Proof.
  intros V Hb. unfold rb_index. rewrite (w_len _ _ V), (w_at _ _ V). apply Nat2Z.inj.
  pose proof (w_long _ _ V). rewrite Z2Nat.id by (apply Z.mod_pos_bound; lia).
  rewrite !Nat2Z.inj_mod. rewrite Zplus_mod_idemp_l. f_equal. lia.
Qed.
Lemma emit_ok H r out b : window H r -> exists r', emit (r, out) b = Ok (r', out ++ [b]) /\ window (H ++ [b]) r'.
Proof.
  intros V. unfold emit, rb_set. rewrite (index_zero r H V).
  assert (Hp : rb_pos r < W) by (rewrite (w_at _ _ V); apply Nat.mod_upper_bound; lia).
  rewrite oset_ok by (rewrite (w_len _ _ V); exact Hp). cbn [obind]. unfold rb_advance. cbn [rb_buf rb_pos].
  eexists. split; [reflexivity|]. pose proof (w_long _ _ V) as HL. constructor; cbn [rb_buf rb_pos].
  - rewrite upd_length. exact (w_len _ _ V).
  - rewrite app_length. lia.
  - rewrite upd_length, (w_len _ _ V), (w_at _ _ V), app_length. cbn [length]. rewrite Nat.add_mod_idemp_l by lia. f_equal. lia.
  - intros h H1 H2. rewrite app_length in H1, H2. cbn [length] in H1, H2. rewrite nth_upd by (rewrite (w_len _ _ V); exact Hp). rewrite (w_at _ _ V).
    destruct (Nat.eqb_spec ((h + off) mod W) ((length H + off) mod W)) as [E|E].
    + apply mod_window in E; try lia. replace h with (length H) by lia. rewrite app_nth2, Nat.sub_diag by lia. reflexivity.
    + assert (h <> length H) by (intros ->; apply E; reflexivity). rewrite app_nth1 by lia. apply (w_val _ _ V); lia.
Qed.
Lemma copy_ok k : forall H r out back, window H r -> 1 <= back <= W ->
  (forall pre, H = pre ++ out -> exists r' out', copy_loop k (- Z.of_nat back) (r, out) = Ok (r', out') /\ window (pre ++ out') r' /\
     out' = copyg pre k back out).
Proof.
  induction k as [|k IH]; intros H r out back V Hb pre E; cbn [copy_loop].
  - exists r, out. subst H. split; [reflexivity|]. split; [exact V|reflexivity].
  - unfold rb_get at 1. cbn [fst]. rewrite (index_back r H back V Hb). pose proof (w_long _ _ V).
    rewrite (oindex_ok _ _ 0%N) by (rewrite (w_len _ _ V); apply Nat.mod_upper_bound; lia). cbn [obind].
    rewrite (w_val _ _ V) by lia. destruct (emit_ok H r out (nth (length H - back) H 0%N) V) as [r1 [E1 V1]]. rewrite E1. cbn [obind].
    assert (E2 : H ++ [nth (length H - back) H 0%N] = pre ++ (out ++ [nth (length H - back) H 0%N])) by (subst H; rewrite <- app_assoc; reflexivity).
    destruct (IH _ r1 _ back V1 Hb pre E2) as [r2 [out2 [E3 [V3 E4]]]]. exists r2, out2. split; [exact E3|]. split; [exact V3|].
    rewrite E4. subst H. reflexivity.
Qed.
(* filling the dictionary *)
Lemma fill_ok v k : k <= W -> ofold (fun r i => rb_set r (Z.of_nat i) v) (seq 0 k) (rb_create W) = Ok (mkRB (repeat v k ++ repeat 0%N (W - k)) 0).
Proof.
  induction k as [|k IH]; intros Hk; [rewrite Nat.sub_0_r; reflexivity|].
  rewrite seq_snoc, ofold_app, IH by lia. cbn [obind ofold Nat.add]. unfold rb_set, rb_index. cbn [rb_buf rb_pos].
  assert (L : length (repeat v k ++ repeat 0%N (W - k)) = W) by (rewrite app_length, !repeat_length; lia).
  rewrite L. change (Z.of_nat 0) with 0%Z. rewrite Z.add_0_l, <- Nat2Z.inj_mod, Nat2Z.id, Nat.mod_small by lia.
  rewrite oset_ok by lia. cbn [obind]. f_equal. f_equal.
  apply (nth_ext _ _ 0%N 0%N).
  - rewrite upd_length, L, app_length, !repeat_length. lia.
  - intros i Hi. rewrite upd_length, L in Hi. rewrite nth_upd by lia.
    assert (R : forall a j, nth j (repeat v a ++ repeat 0%N (W - a)) 0%N = if j <? a then v else 0%N).
    { intros a j. destruct (Nat.ltb_spec j a) as [C|C].
      - rewrite app_nth1 by (rewrite repeat_length; exact C). rewrite (nth_indep _ 0%N v) by (rewrite repeat_length; exact C). apply nth_repeat.
      - rewrite app_nth2 by (rewrite repeat_length; exact C). apply nth_repeat. }
    rewrite !R. destruct (Nat.eqb_spec i k), (Nat.ltb_spec i k), (Nat.ltb_spec i (S k)); try lia; reflexivity.
Qed.
End Ring.
Lemma window_start W v k : 0 < W -> k <= W ->
  window W k (repeat 0%N (W - k) ++ repeat v k) (rb_set_pos (mkRB (repeat v k ++ repeat 0%N (W - k)) 0) k).
Proof.
  intros HW Hk. unfold rb_set_pos. cbn [rb_buf].
  assert (L : length (repeat v k ++ repeat 0%N (W - k)) = W) by (rewrite app_length, !repeat_length; lia).
  assert (L2 : length (repeat 0%N (W - k) ++ repeat v k) = W) by (rewrite app_length, !repeat_length; lia).
  constructor; cbn [rb_buf rb_pos]; rewrite ?L, ?L2; try lia.
  - replace (W + k) with (k + 1 * W) by lia. rewrite Nat.mod_add by lia. reflexivity.
  - intros h _ Hh. destruct (Nat.lt_ge_cases h (W - k)) as [C|C].
    + rewrite Nat.mod_small by lia. rewrite app_nth2 by (rewrite repeat_length; lia). rewrite nth_repeat.
      rewrite app_nth1 by (rewrite repeat_length; lia). rewrite nth_repeat. reflexivity.
    + replace (h + k) with (h + k - W + 1 * W) by lia. rewrite Nat.mod_add by lia. rewrite Nat.mod_small by lia.
      rewrite app_nth1 by (rewrite repeat_length; lia). rewrite app_nth2 by (rewrite repeat_length; lia).
      rewrite !(nth_indep (repeat v k) 0%N v) by (rewrite repeat_length; rewrite ?repeat_length; lia). rewrite !nth_repeat. reflexivity.
Qed.

(* ---- symbols ---- *)
Definition hstate (n : nat) (past : list nat) : outcome htree := let! t := ht_create n in ofold ht_update past t.
Definition tree_at (n : nat) (past : list nat) : ctree := match hstate n past with Ok t => tree_of n t | _ => Leaf 0 end.
Lemma hstate_snoc n past y : hstate n (past ++ [y]) = let! t := hstate n past in ht_update t y.
Proof.
  unfold hstate. destruct (ht_create n) as [t| |]; cbn [obind]; [|reflexivity..]. rewrite ofold_app. destruct (ofold ht_update past t); cbn [obind ofold]; [|reflexivity..].
  destruct (ht_update _ y); reflexivity.
Qed.
Lemma hstate_ok n past : 2 <= n -> (N.of_nat n < 0x8000)%N -> Forall (fun y => y < n) past ->
  exists t, hstate n past = Ok t /\ valid n t /\ weights t = counts n past.
Proof.
  intros H2 Hn. induction past as [|y past IH] using rev_ind; intros F.
  - destruct (create_ok n H2 Hn) as [t [E [V Wt]]]. exists t. unfold hstate. rewrite E. split; [reflexivity|]. split; [exact V|exact Wt].
  - apply Forall_app in F. destruct F as [F1 F2]. destruct (IH F1) as [t [E [V Wt]]]. inversion F2 as [|? ? Hy _]; subst.
    destruct (update_ok n t y V Hy) as [t' [E' [V' W']]]. exists t'. rewrite hstate_snoc, E. cbn [obind]. split; [exact E'|]. split; [exact V'|].
    rewrite W', Wt. unfold counts. rewrite fold_left_app. reflexivity.
Qed.
Lemma tree_at_huffman n past : 2 <= n -> (N.of_nat n < 0x8000)%N -> Forall (fun y => y < n) past -> huffman_tree n (counts n past) (tree_at n past).
Proof. intros H2 Hn F. destruct (hstate_ok n past H2 Hn F) as [t [E [V Wt]]]. unfold tree_at. rewrite E, <- Wt. apply valid_huffman. exact V. Qed.

(* ---- the main loop ---- *)
Lemma codeword_nonempty n t y w : valid n t -> codeword (tree_of n t) y w -> w <> [].
Proof.
  intros V C E. subst w. pose proof (proj1 (valid_huffman _ _ V)) as P. pose proof (ok_n _ _ _ _ _ _ (v_ok _ _ V)) as Hn.
  inversion C as [z Ez| |]; subst. rewrite <- Ez in P. cbn [leaves] in P. apply Permutation.Permutation_length in P. rewrite seq_length in P. cbn [length] in P. lia.
Qed.
Section Loop.
Variables (n W k : nat) (pre : list N).
Hypothesis Hn : N.of_nat n = 314%N.
Hypothesis HW : N.of_nat W = 4096%N.
Hypothesis Hpre : length pre = W.
Hypothesis Hist : forall out, history out = pre ++ out.
Lemma copy_bytes_g len back out : copy_bytes len back out = copyg pre len back out.
Proof. revert out; induction len as [|len IH]; intros out; [reflexivity|]. cbn [copy_bytes copyg]. rewrite Hist. apply IH. Qed.
Lemma lz_fold_length ts out : length out <= length (fold_left lz_step ts out).
Proof.
  revert out; induction ts as [|t ts IH]; intros out; [apply le_n|]. cbn [fold_left]. etransitivity; [|apply IH].
  destruct t as [b|dist len]; cbn [lz_step]; [rewrite app_length; lia|]. generalize (N.to_nat len). intros l. rewrite copy_bytes_g.
  revert out; clear; induction l as [|l IH]; intros out; cbn [copyg]; [lia|]. etransitivity; [|apply IH]. rewrite app_length. lia.
Qed.
Definition under (out : list N) (ts : list token) : Prop :=
  forall a t b, ts = a ++ t :: b -> (12 + N.of_nat (length (fold_left lz_step a out)) < limit)%N.
Lemma under_nil out : under out [].
Proof. intros a t b E. destruct a; discriminate. Qed.
Lemma under_cons out t ts : (12 + N.of_nat (length out) < limit)%N -> under (lz_step out t) ts -> under out (t :: ts).
Proof. intros L U a t' b E. destruct a as [|u a]; [exact L|]. cbn [app] in E. injection E as -> E. exact (U a t' b E). Qed.
Lemma expand_loop_ok fuel : forall past t src r out, hstate n past = Ok t -> valid n t -> src_ok src -> window W k (pre ++ out) r ->
  length (bits_left src) < fuel ->
  exists ts bits rest, expand_loop fuel (mkDe t src) (r, out) = Ok (fold_left lz_step ts out) /\ bits_left src = bits ++ rest /\
    coded (tree_at n) past ts bits /\ under out ts /\
    (no_token (tree_at n) (past ++ map token_symbol ts) rest \/ (limit <= 12 + N.of_nat (length (fold_left lz_step ts out)))%N).
Proof.
  induction fuel as [|fuel IH]; intros past t src r out Hst V Hs Hw Hf; [lia|].
  cbn [expand_loop]. cbn [snd]. change 0xffffffff%N with limit. destruct (N.ltb_spec (12 + N.of_nat (length out)) limit) as [L|L].
  2:{ exists [], [], (bits_left src). split; [reflexivity|]. split; [reflexivity|]. split; [constructor|]. split; [apply under_nil|]. right. exact L. }
  assert (Et : tree_of n t = tree_at n past) by (unfold tree_at; rewrite Hst; reflexivity).
  destruct (codeword_complete (tree_of n t) (bits_left src)) as [[y [w [rb [C E]]]]|No].
  2:{ rewrite (decode_char_eof n t src V Hs No). cbn [obind]. exists [], [], (bits_left src). cbn [map fold_left]. rewrite app_nil_r.
      split; [reflexivity|]. split; [reflexivity|]. split; [constructor|]. split; [apply under_nil|]. left. intros tk w rr _ Cw. rewrite <- Et in Cw. exact (No _ _ _ Cw). }
  destruct (decode_char_ok n t src y w rb V Hs C E) as [t' [src' [D [Hu [V' [_ [Eb Hs']]]]]]]. rewrite D. cbn [obind].
  pose proof (tree_symbols _ _ _ _ V C) as Hy. pose proof (codeword_nonempty _ _ _ _ V C) as Hw0.
  assert (Hst' : hstate n (past ++ [y]) = Ok t') by (rewrite hstate_snoc, Hst; exact Hu).
  assert (Lb : length rb < length (bits_left src)). { rewrite E, app_length. destruct w; [congruence|]. cbn [length]. lia. }
  destruct (Nat.ltb_spec y 256) as [C256|C256].
  - assert (E8 : as_u8 (N.of_nat y) = N.of_nat y) by (unfold as_u8; apply N.mod_small; clear - C256; lia). rewrite E8.
    destruct (emit_ok W k ltac:(clear - HW; lia) _ _ out (N.of_nat y) Hw) as [r1 [E1 W1]]. rewrite E1. cbn [obind]. rewrite <- app_assoc in W1.
    destruct (IH _ t' src' r1 (out ++ [N.of_nat y]) Hst' V' Hs' W1 ltac:(rewrite Eb; lia)) as [ts [bits [rest [X1 [X2 [X3 [X4 X5]]]]]]].
    exists (Lit (N.of_nat y) :: ts), (w ++ token_tail (Lit (N.of_nat y)) ++ bits), rest. cbn [token_tail app fold_left lz_step map].
    assert (Sy : token_symbol (Lit (N.of_nat y)) = y) by (cbn [token_symbol]; apply Nat2N.id).
    split; [exact X1|]. split; [rewrite E, <- app_assoc; f_equal; rewrite <- Eb; exact X2|]. split; [|split].
    + apply (coded_cons (tree_at n) past (Lit (N.of_nat y)) ts w bits); [cbn [token_ok]; clear - C256; lia| |]; rewrite Sy; [rewrite <- Et; exact C|exact X3].
    + apply under_cons; [exact L|exact X4].
    + rewrite Sy. rewrite <- app_assoc in X5. exact X5.
  - cbn [de_src de_tree]. destruct (decode_position_spec src' Hs') as [[dist [s2 [Ed [Hd [B2 S2]]]]]|[Ed Nd]]; rewrite Ed; cbn [obind].
    + set (len := (N.of_nat y - 253)%N). assert (Hlen : (3 <= len <= 60)%N) by (unfold len; lia).
      assert (Ek : y + 2 - 255 = N.to_nat len) by (unfold len; lia). rewrite Ek.
      assert (Eo : (- (Z.of_N dist + 1))%Z = (- Z.of_nat (N.to_nat dist + 1))%Z) by lia. rewrite Eo.
      destruct (copy_ok W k ltac:(clear - HW; lia) (N.to_nat len) (pre ++ out) r out (N.to_nat dist + 1) Hw ltac:(clear - HW Hd; lia) pre eq_refl) as [r1 [out1 [E1 [W1 O1]]]].
      rewrite E1. cbn [obind].
      assert (Lc : length (dist_code dist) <= length rb) by (rewrite <- Eb, B2, app_length; lia).
      destruct (IH _ t' s2 r1 out1 Hst' V' S2 W1 ltac:(assert (length (bits_left s2) <= length rb) by (rewrite <- Eb, B2, app_length; lia); lia)) as [ts [bits [rest [X1 [X2 [X3 [X4 X5]]]]]]].
      exists (Copy dist len :: ts), (w ++ token_tail (Copy dist len) ++ bits), rest. cbn [token_tail fold_left lz_step map].
      rewrite copy_bytes_g, <- O1.
      assert (Sy : token_symbol (Copy dist len) = y) by (cbn [token_symbol]; unfold len; clear - C256; lia).
      split; [exact X1|]. split; [rewrite E, <- !app_assoc, <- X2, <- B2; f_equal; symmetry; exact Eb|]. split; [|split].
      * apply (coded_cons (tree_at n) past (Copy dist len) ts w bits); [cbn [token_ok]; split; [exact Hd|exact Hlen]| |]; rewrite Sy; [rewrite <- Et; exact C|exact X3].
      * apply under_cons; [exact L|]. cbn [lz_step]. rewrite copy_bytes_g, <- O1. exact X4.
      * rewrite Sy. rewrite <- app_assoc in X5. exact X5.
    + exists [], [], (bits_left src). cbn [map fold_left]. rewrite app_nil_r.
      split; [reflexivity|]. split; [reflexivity|]. split; [constructor|]. split; [apply under_nil|]. left. intros tk w' rr Ok' Cw E'. rewrite <- Et in Cw.
      rewrite E in E'. destruct (codeword_prefix _ _ _ _ _ _ _ C Cw E') as [Ey [_ Er]].
      destruct tk as [b|d' l']; cbn [token_symbol token_ok] in *; [clear - Ey C256 Ok'; lia|]. cbn [token_tail] in Er. destruct Ok' as [Ok' _].
      exact (Nd d' rr Ok' (eq_trans Eb Er)).
Qed.
End Loop.

(* ---- a stream holds one list of tokens ---- *)
Lemma tail_length_inj t t' : token_ok t -> token_ok t' -> token_symbol t = token_symbol t' -> forall r r', token_tail t ++ r = token_tail t' ++ r' -> t = t' /\ r = r'.
Proof.
  intros O O' E r r' Er. destruct t as [b|d l], t' as [b'|d' l']; cbn [token_ok token_symbol token_tail app] in *.
  - split; [f_equal; lia|exact Er].
  - exfalso. lia.
  - exfalso. lia.
  - destruct O as [O1 O2], O' as [O1' O2']. destruct (dist_code_prefix d d' r r' O1 O1' Er) as [-> ->]. split; [f_equal; lia|reflexivity].
Qed.
Lemma coded_unique T ts : forall past bits, coded T past ts bits -> forall ts' bits' r r', coded T past ts' bits' -> bits ++ r = bits' ++ r' ->
  (exists t' tl w, ts' = ts ++ t' :: tl /\ token_ok t' /\ codeword (T (past ++ map token_symbol ts)) (token_symbol t') w /\ exists q, r = w ++ token_tail t' ++ q) \/
  (exists t' tl w, ts = ts' ++ t' :: tl /\ token_ok t' /\ codeword (T (past ++ map token_symbol ts')) (token_symbol t') w /\ exists q, r' = w ++ token_tail t' ++ q) \/
  (ts = ts' /\ bits = bits' /\ r = r').
Proof.
  induction ts as [|t ts IH]; intros past bits C ts' bits' r r' C' E.
  - inversion C; subst. cbn [app] in E. inversion C' as [|? t' tl w b' O' W' K']; subst; [right; right; cbn [app]; auto|].
    left. exists t', tl, w. cbn [map app]. rewrite app_nil_r. split; [reflexivity|]. split; [exact O'|]. split; [exact W'|]. exists (b' ++ r'). rewrite <- !app_assoc. reflexivity.
  - inversion C as [|? ? ? w b O W0 K]; subst. inversion C' as [|? t' tl w' b' O' W' K']; subst.
    + right; left. exists t, ts, w. cbn [map app]. rewrite app_nil_r. split; [reflexivity|]. split; [exact O|]. split; [exact W0|]. exists (b ++ r). cbn [app] in E. rewrite <- E, <- !app_assoc. reflexivity.
    + rewrite <- !app_assoc in E. destruct (codeword_prefix _ _ _ _ _ _ _ W0 W' E) as [Es [-> E2]].
      destruct (tail_length_inj t t' O O' Es _ _ E2) as [<- E3].
      destruct (IH _ _ K _ _ r r' K' E3) as [[t1 [tl1 [w1 [A1 [A2 [A3 A4]]]]]]|[[t1 [tl1 [w1 [A1 [A2 [A3 A4]]]]]]|[A1 [A2 A3]]]].
      * left. exists t1, tl1, w1. cbn [map app]. rewrite <- app_assoc in A3. split; [rewrite A1; reflexivity|]. split; [exact A2|]. split; [exact A3|exact A4].
      * right; left. exists t1, tl1, w1. cbn [map app]. rewrite <- app_assoc in A3. split; [rewrite A1; reflexivity|]. split; [exact A2|]. split; [exact A3|exact A4].
      * right; right. rewrite A1, A2. auto.
Qed.

Definition tree314 : list nat -> ctree := tree_at 314.
Lemma dict_gen W k : 0 < W -> k <= W ->
  exists r, (let! r := ofold (fun r i => rb_set r (Z.of_nat i) 32%N) (seq 0 k) (rb_create W) in Ok (rb_set_pos r k)) = Ok r /\
    window W k (repeat 0%N (W - k) ++ repeat 32%N k ++ []) r.
Proof.
  intros H1 H2. rewrite (fill_ok W H1 32%N k H2). cbn [obind]. eexists. split; [reflexivity|]. rewrite app_nil_r. apply (window_start W 32%N k H1 H2).
Qed.
Lemma dict_start_ok : exists r, dict_start = Ok r /\ window 4096 4036 (history []) r.
Proof. exact (dict_gen 4096 4036 (Nat.lt_0_succ _) (proj1 (Nat.leb_le 4036 4096) eq_refl)). Qed.
Lemma lzhuf_expand_ok file : (12 <= N.of_nat (length file))%N ->
  exists ts bits rest, lzhuf_expand file = Ok (match lz ts with [] => [] | _ => repeat 0%N 12 ++ lz ts end, N.of_nat (length (lz ts))) /\
    body_bits file = bits ++ rest /\ coded tree314 [] ts bits /\ within ts /\
    (no_token tree314 (map token_symbol ts) rest \/ (limit <= 12 + N.of_nat (length (lz ts)))%N).
Proof.
  intros L. unfold lzhuf_expand. destruct (Nat.ltb_spec (length file) 12) as [C|C]; [lia|].
  change (256 + 60 - 2) with 314. unfold tree314.
  assert (En : exists n, n = 314 /\ N.of_nat n = 314%N) by (exists 314; split; reflexivity). destruct En as [n [E1 En]]. rewrite <- E1.
  destruct (create_ok n ltac:(lia) ltac:(lia)) as [t [Et [V _]]]. rewrite Et. cbn [obind].
  destruct dict_start_ok as [r [Er Wr]]. rewrite Er. cbn [obind].
  set (pre := repeat 0%N 60 ++ repeat 32%N 4036).
  assert (Hp : length pre = 4096) by (unfold pre; rewrite app_length, !repeat_length; reflexivity).
  assert (Hh : forall out, history out = pre ++ out) by (intros out; unfold history, pre; rewrite <- app_assoc; reflexivity).
  assert (EW : exists W k, W = 4096 /\ k = 4036 /\ N.of_nat W = 4096%N). { exists 4096, 4036. split; [reflexivity|]. split; reflexivity. }
  destruct EW as [W [k [F1 [F2 HW]]]]. assert (Wr' : window W k (pre ++ []) r) by (rewrite <- Hh, F1, F2; exact Wr). assert (Hp' : length pre = W) by (rewrite F1; exact Hp). clear Wr Hp F1 F2.
  set (body := skipn 12 file). assert (Hst : hstate n [] = Ok t) by (unfold hstate; rewrite Et; reflexivity).
  assert (Hb : bits_left (mkBS [] 0 body) = body_bits file) by reflexivity.
  assert (Lb : length (body_bits file) = 8 * length body).
  { unfold body_bits. fold body. rewrite (flat_map_const_length byte_bits 8 body byte_bits_length). apply Nat.mul_comm. }
  destruct (expand_loop_ok n W k pre En HW Hp' Hh (S (8 * length body)) [] t (mkBS [] 0 body) r [] Hst V (le_n 0)) as [ts [bits [rest [X1 [X2 [X3 [X4 X5]]]]]]].
  - exact Wr'.
  - rewrite Hb, Lb. lia.
  - rewrite X1. cbn [obind]. exists ts, bits, rest. split; [reflexivity|]. split; [exact X2|]. split; [exact X3|]. split; [exact X4|exact X5].
Qed.
