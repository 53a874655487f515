(* OddEven_proofs.v - odd/even helpers: symbolic bit evaluation by reflection. *)
From Verif Require Import Base Base_lemmas Mfm_spec Crc_model Crc_spec Crc_proofs OddEven_model OddEven_spec.
Local Open Scope N_scope.

(* Expressions over two variables, and for every output bit the list of input bits it is the `or` of. *)
Inductive bexp : Set :=
| BV (v : bool) (w : N) | BAnd (e : bexp) (m : N) | BOr (a b : bexp)
| BShl (e : bexp) (k : N) | BShr (e : bexp) (k : N).
Fixpoint beval (env : bool -> N) (e : bexp) : N :=
  match e with
  | BV v _ => env v
  | BAnd e m => N.land (beval env e) m
  | BOr a b => N.lor (beval env a) (beval env b)
  | BShl e k => N.shiftl (beval env e) k
  | BShr e k => N.shiftr (beval env e) k
  end.
Fixpoint bsym (e : bexp) (i : N) : list (bool * N) :=
  match e with
  | BV v w => if i <? w then [(v, i)] else []
  | BAnd e m => if N.testbit m i then bsym e i else []
  | BOr a b => bsym a i ++ bsym b i
  | BShl e k => if i <? k then [] else bsym e (i - k)
  | BShr e k => bsym e (i + k)
  end.
Fixpoint bwf (env : bool -> N) (e : bexp) : Prop :=
  match e with
  | BV v w => env v < 2 ^ w
  | BAnd e _ | BShl e _ | BShr e _ => bwf env e
  | BOr a b => bwf env a /\ bwf env b
  end.
Definition lookup (env : bool -> N) (p : bool * N) : bool := N.testbit (env (fst p)) (snd p).

Lemma bsym_ok env e i : bwf env e -> N.testbit (beval env e) i = existsb (lookup env) (bsym e i).
Proof.
  revert i; induction e as [v w|e IH m|a IHa b IHb|e IH k|e IH k]; intros i; cbn [bwf beval bsym]; intros H.
  - destruct (N.ltb_spec i w); cbn [existsb lookup fst snd].
    + unfold lookup; cbn [fst snd]. rewrite orb_false_r; reflexivity.
    + apply (bits_lt_pow2 _ w); auto.
  - rewrite N.land_spec, IH by auto. destruct (N.testbit m i); [apply andb_true_r|apply andb_false_r].
  - destruct H. rewrite N.lor_spec, IHa, IHb by auto. rewrite existsb_app. reflexivity.
  - destruct (N.ltb_spec i k).
    + apply N.shiftl_spec_low; auto.
    + rewrite N.shiftl_spec_high' by auto. apply IH; auto.
  - rewrite N.shiftr_spec'. apply IH; auto.
Qed.

Definition pair_eqb (a b : bool * N) : bool := eqb (fst a) (fst b) && (snd a =? snd b).
Definition sub_set (a b : list (bool * N)) : bool := forallb (fun x => existsb (pair_eqb x) b) a.
Definition same_set a b := sub_set a b && sub_set b a.
Lemma sub_set_ok env a b : sub_set a b = true -> existsb (lookup env) a = true -> existsb (lookup env) b = true.
Proof.
  unfold sub_set. rewrite forallb_forall. intros H Ha.
  apply existsb_exists in Ha as (x & Hx & Hl). specialize (H x Hx).
  apply existsb_exists in H as (y & Hy & E). apply existsb_exists. exists y. split; auto.
  unfold pair_eqb in E. apply andb_prop in E as [E1 E2].
  apply eqb_prop in E1. apply N.eqb_eq in E2. unfold lookup in *. congruence.
Qed.
Lemma same_set_ok env a b : same_set a b = true -> existsb (lookup env) a = existsb (lookup env) b.
Proof.
  intros H. apply andb_prop in H as [H1 H2].
  pose proof (sub_set_ok env _ _ H1) as A. pose proof (sub_set_ok env _ _ H2) as B.
  destruct (existsb _ a), (existsb _ b); auto. symmetry; auto.
Qed.

(* bit (f j) of e1 = bit (g j) of e2 for all j < n *)
Definition bit_chk (n : N) (e1 : bexp) (f : N -> N) (e2 : bexp) (g : N -> N) : bool :=
  forallb (fun j => same_set (bsym e1 (f j)) (bsym e2 (g j))) (Nseq n).
Lemma bit_chk_ok env n e1 f e2 g j :
  bwf env e1 -> bwf env e2 -> bit_chk n e1 f e2 g = true -> j < n ->
  N.testbit (beval env e1) (f j) = N.testbit (beval env e2) (g j).
Proof.
  intros H1 H2 H Hj. rewrite !bsym_ok by auto. apply same_set_ok.
  unfold bit_chk in H. rewrite forallb_forall in H. apply H, in_Nseq; auto.
Qed.

Lemma glue_lor k hi lo : lo < 2 ^ k -> hi * 2 ^ k + lo = N.lor (N.shiftl hi k) lo.
Proof.
  intros H. rewrite N.shiftl_mul_pow2. rewrite N.add_nocarry_lxor.
  - apply N.bits_inj; intros i. rewrite N.lxor_spec, N.lor_spec.
    destruct (N.ltb_spec i k).
    + rewrite N.mul_pow2_bits_low by auto. destruct (N.testbit lo i); reflexivity.
    + rewrite (bits_lt_pow2 lo k i) by auto. rewrite orb_false_r, xorb_false_r. reflexivity.
  - apply N.bits_inj; intros i. rewrite N.land_spec, N.bits_0.
    destruct (N.ltb_spec i k).
    + rewrite N.mul_pow2_bits_low by auto. reflexivity.
    + rewrite (bits_lt_pow2 lo k i) by auto. apply andb_false_r.
Qed.

Lemma land_ones_lt x w : N.land x (N.ones w) < 2 ^ w.
Proof. rewrite N.land_ones. apply N.mod_lt. apply N.pow_nonzero. discriminate. Qed.
Lemma land_mask_lt x m w : m < 2 ^ w -> N.land x m < 2 ^ w.
Proof.
  intros H. apply lt_pow2_bits. intros i Hi. rewrite N.land_spec, (bits_lt_pow2 m w i) by auto. apply andb_false_r.
Qed.

(* ---- decoding ---- *)
Definition env2 (a b : N) : bool -> N := fun v => if v then a else b.
Definition BShlW w e k := BAnd (BShl e k) (N.ones w).

Definition sym_decode8 : bexp :=
  let o := BShlW 16 (BV true 8) 8 in let e := BV false 8 in
  let e := BAnd (BOr e (BShlW 16 e 4)) 0x0F0F in
  let e := BAnd (BOr e (BShlW 16 e 2)) 0x3333 in
  let e := BAnd (BOr e (BShlW 16 e 1)) 0x5555 in
  let o := BAnd (BOr o (BShr o 4)) 0xF0F0 in
  let o := BAnd (BOr o (BShr o 2)) 0xCCCC in
  let o := BAnd (BOr o (BShr o 1)) 0xAAAA in BOr o e.
Definition sym_decode32p : bexp :=
  let o := BShlW 64 (BV true 32) 32 in let e := BV false 32 in
  let e := BAnd (BOr e (BShlW 64 e 16)) 0x0000FFFF0000FFFF in
  let e := BAnd (BOr e (BShlW 64 e 8)) 0x00FF00FF00FF00FF in
  let e := BAnd (BOr e (BShlW 64 e 4)) 0x0F0F0F0F0F0F0F0F in
  let e := BAnd (BOr e (BShlW 64 e 2)) 0x3333333333333333 in
  let e := BAnd (BOr e (BShlW 64 e 1)) 0x5555555555555555 in
  let o := BAnd (BOr o (BShr o 16)) 0xFFFF0000FFFF0000 in
  let o := BAnd (BOr o (BShr o 8)) 0xFF00FF00FF00FF00 in
  let o := BAnd (BOr o (BShr o 4)) 0xF0F0F0F0F0F0F0F0 in
  let o := BAnd (BOr o (BShr o 2)) 0xCCCCCCCCCCCCCCCC in
  let o := BAnd (BOr o (BShr o 1)) 0xAAAAAAAAAAAAAAAA in BOr o e.
Definition split2 (k : N) (m : N) (e : bexp) : bexp := BOr (BShl (BAnd (BShr e k) m) k) (BAnd e m).

Lemma decode8_spec o e hi lo : o < 2 ^ 8 -> e < 2 ^ 8 -> oe_decode_u8_pair o e = (hi, lo) ->
  hi < 2 ^ 8 /\ lo < 2 ^ 8 /\ is_odd_half 8 (hi * 2 ^ 8 + lo) o /\ is_even_half 8 (hi * 2 ^ 8 + lo) e.
Proof.
  intros Ho He E. pose (env := env2 o e).
  assert (Hw : bwf env (split2 8 0xFF sym_decode8)) by (repeat split; assumption).
  assert (E' : oe_decode_u8_pair o e = (beval env (BAnd (BShr sym_decode8 8) 0xFF), beval env (BAnd sym_decode8 0xFF)))
    by (cbv [oe_decode_u8_pair sym_decode8 BShlW beval shl env env2]; reflexivity).
  rewrite E' in E; clear E'.
  assert (Ehi : hi = beval env (BAnd (BShr sym_decode8 8) 0xFF)) by (symmetry; exact (f_equal fst E)).
  assert (Elo : lo = beval env (BAnd sym_decode8 0xFF)) by (symmetry; exact (f_equal snd E)).
  clear E.
  assert (Hhi : hi < 2 ^ 8) by (subst hi; apply (land_mask_lt _ 0xFF); reflexivity).
  assert (Hlo : lo < 2 ^ 8) by (subst lo; apply (land_mask_lt _ 0xFF); reflexivity).
  repeat split; auto; rewrite glue_lor by auto; subst hi lo; intros j Hj;
    change (N.lor (N.shiftl (beval env (BAnd (BShr sym_decode8 8) 0xFF)) 8) (beval env (BAnd sym_decode8 0xFF)))
      with (beval env (split2 8 0xFF sym_decode8)).
  - apply (bit_chk_ok env 8 (BV true 8) (fun j => j) (split2 8 0xFF sym_decode8) (fun j => 2 * j + 1)); auto.
  - apply (bit_chk_ok env 8 (BV false 8) (fun j => j) (split2 8 0xFF sym_decode8) (fun j => 2 * j)); auto.
Qed.

Lemma decode32p_spec o e hi lo : o < 2 ^ 32 -> e < 2 ^ 32 -> oe_decode_u32_pair o e = (hi, lo) ->
  hi < 2 ^ 32 /\ lo < 2 ^ 32 /\ is_odd_half 32 (hi * 2 ^ 32 + lo) o /\ is_even_half 32 (hi * 2 ^ 32 + lo) e.
Proof.
  intros Ho He E. pose (env := env2 o e).
  assert (Hw : bwf env (split2 32 0xFFFFFFFF sym_decode32p)) by (repeat split; assumption).
  assert (E' : oe_decode_u32_pair o e = (beval env (BAnd (BShr sym_decode32p 32) 0xFFFFFFFF), beval env (BAnd sym_decode32p 0xFFFFFFFF)))
    by (cbv [oe_decode_u32_pair sym_decode32p BShlW beval shl env env2]; reflexivity).
  rewrite E' in E; clear E'.
  assert (Ehi : hi = beval env (BAnd (BShr sym_decode32p 32) 0xFFFFFFFF)) by (symmetry; exact (f_equal fst E)).
  assert (Elo : lo = beval env (BAnd sym_decode32p 0xFFFFFFFF)) by (symmetry; exact (f_equal snd E)).
  clear E.
  assert (Hhi : hi < 2 ^ 32) by (subst hi; apply (land_mask_lt _ 0xFFFFFFFF); reflexivity).
  assert (Hlo : lo < 2 ^ 32) by (subst lo; apply (land_mask_lt _ 0xFFFFFFFF); reflexivity).
  repeat split; auto; rewrite glue_lor by auto; subst hi lo; intros j Hj;
    change (N.lor (N.shiftl (beval env (BAnd (BShr sym_decode32p 32) 0xFFFFFFFF)) 32) (beval env (BAnd sym_decode32p 0xFFFFFFFF)))
      with (beval env (split2 32 0xFFFFFFFF sym_decode32p)).
  - apply (bit_chk_ok env 32 (BV true 32) (fun j => j) (split2 32 0xFFFFFFFF sym_decode32p) (fun j => 2 * j + 1)); auto.
  - apply (bit_chk_ok env 32 (BV false 32) (fun j => j) (split2 32 0xFFFFFFFF sym_decode32p) (fun j => 2 * j)); auto.
Qed.

Definition sym_decode32 : bexp :=
  let o := BAnd (BV true 32) 0xFFFF0000 in
  let e := BAnd (BV true 32) 0x0000FFFF in
  let e := BAnd (BOr e (BShlW 32 e 8)) 0x00FF00FF in
  let e := BAnd (BOr e (BShlW 32 e 4)) 0x0F0F0F0F in
  let e := BAnd (BOr e (BShlW 32 e 2)) 0x33333333 in
  let e := BAnd (BOr e (BShlW 32 e 1)) 0x55555555 in
  let o := BAnd (BOr o (BShr o 8)) 0xFF00FF00 in
  let o := BAnd (BOr o (BShr o 4)) 0xF0F0F0F0 in
  let o := BAnd (BOr o (BShr o 2)) 0xCCCCCCCC in
  let o := BAnd (BOr o (BShr o 1)) 0xAAAAAAAA in BOr o e.
Lemma decode32_spec x : x < 2 ^ 32 ->
  is_odd_half 16 (oe_decode_u32 x) (x / 2 ^ 16) /\ is_even_half 16 (oe_decode_u32 x) (x mod 2 ^ 16).
Proof.
  intros Hx. pose (env := env2 x 0).
  assert (Hw : bwf env sym_decode32) by (repeat split; assumption).
  assert (E : oe_decode_u32 x = beval env sym_decode32)
    by (cbv [oe_decode_u32 sym_decode32 BShlW beval shl env env2]; reflexivity). rewrite E.
  split; split.
  - apply N.div_lt_upper_bound; [discriminate|]. exact Hx.
  - intros j Hj. rewrite <- N.shiftr_div_pow2.
    apply (bit_chk_ok env 16 (BShr (BV true 32) 16) (fun j => j) sym_decode32 (fun j => 2 * j + 1)); auto.
  - apply N.mod_lt; discriminate.
  - intros j Hj. rewrite <- N.land_ones.
    apply (bit_chk_ok env 16 (BAnd (BV true 32) (N.ones 16)) (fun j => j) sym_decode32 (fun j => 2 * j)); auto.
Qed.

(* ---- encoding ---- *)
Definition sym_w8 : bexp := BOr (BShlW 16 (BV true 8) 8) (BV false 8).
Definition sym_e8 : bexp :=
  let e := BAnd sym_w8 0x5555 in
  let e := BAnd (BOr e (BShr e 1)) 0x3333 in
  let e := BAnd (BOr e (BShr e 2)) 0x0F0F in
  let e := BAnd (BOr e (BShr e 4)) 0x00FF in BAnd e 0xFF.
Definition sym_o8 : bexp :=
  let o := BShr (BAnd sym_w8 0xAAAA) 1 in
  let o := BAnd (BOr o (BShlW 16 o 1)) 0xCCCC in
  let o := BAnd (BOr o (BShlW 16 o 2)) 0xF0F0 in
  let o := BAnd (BOr o (BShlW 16 o 4)) 0xFF00 in BAnd (BShr o 8) 0xFF.
Lemma encode8_spec x y o e : x < 2 ^ 8 -> y < 2 ^ 8 -> oe_encode_u8_pair x y = (o, e) ->
  is_even_half 8 (x * 2 ^ 8 + y) e /\ o < 2 ^ 8 /\
  forall j, j < 8 -> N.testbit o j = N.testbit (x * 2 ^ 8 + y) (4 * (j / 2) + 3).
Proof.
  intros Hx Hy E. pose (env := env2 x y).
  assert (E' : oe_encode_u8_pair x y = (beval env sym_o8, beval env sym_e8))
    by (cbv [oe_encode_u8_pair sym_e8 sym_o8 sym_w8 BShlW beval shl env env2]; reflexivity).
  rewrite E' in E; clear E'.
  assert (Ee : e = beval env sym_e8) by (symmetry; exact (f_equal snd E)).
  assert (Eo : o = beval env sym_o8) by (symmetry; exact (f_equal fst E)).
  clear E. rewrite glue_lor by auto.
  assert (He : bwf env sym_e8) by (repeat split; assumption).
  assert (Ho : bwf env sym_o8) by (repeat split; assumption).
  set (W := BOr (BShl (BV true 8) 8) (BV false 8)).
  assert (HW : bwf env W) by (split; assumption).
  change (N.lor (N.shiftl x 8) y) with (beval env W).
  split; [split|split].
  - subst e; apply (land_mask_lt _ 0xFF); reflexivity.
  - intros j Hj. subst e. apply (bit_chk_ok env 8 sym_e8 (fun j => j) W (fun j => 2 * j)); auto.
  - subst o; apply (land_mask_lt _ 0xFF); reflexivity.
  - intros j Hj. subst o. apply (bit_chk_ok env 8 sym_o8 (fun j => j) W (fun j => 4 * (j / 2) + 3)); auto.
Qed.

Definition sym_w32 : bexp := BOr (BShlW 64 (BV true 32) 32) (BV false 32).
Definition sym_e32p : bexp :=
  let e := BAnd sym_w32 0x5555555555555555 in
  let e := BAnd (BOr e (BShr e 1)) 0x3333333333333333 in
  let e := BAnd (BOr e (BShr e 2)) 0x0F0F0F0F0F0F0F0F in
  let e := BAnd (BOr e (BShr e 4)) 0x00FF00FF00FF00FF in
  let e := BAnd (BOr e (BShr e 8)) 0x0000FFFF0000FFFF in
  let e := BAnd (BOr e (BShr e 16)) 0x00000000FFFFFFFF in BAnd e 0xFFFFFFFF.
Definition sym_o32p : bexp :=
  let o := BShr (BAnd sym_w32 0xAAAAAAAAAAAAAAAA) 1 in
  let o := BAnd (BOr o (BShlW 64 o 1)) 0xCCCCCCCCCCCCCCCC in
  let o := BAnd (BOr o (BShlW 64 o 2)) 0xF0F0F0F0F0F0F0F0 in
  let o := BAnd (BOr o (BShlW 64 o 4)) 0xFF00FF00FF00FF00 in
  let o := BAnd (BOr o (BShlW 64 o 8)) 0xFFFF0000FFFF0000 in
  let o := BAnd (BOr o (BShlW 64 o 16)) 0xFFFFFFFF00000000 in BAnd (BShr o 32) 0xFFFFFFFF.
Lemma encode32p_spec x y o e : x < 2 ^ 32 -> y < 2 ^ 32 -> oe_encode_u32_pair x y = (o, e) ->
  is_even_half 32 (x * 2 ^ 32 + y) e /\ o < 2 ^ 32 /\
  forall j, j < 32 -> N.testbit o j = N.testbit (x * 2 ^ 32 + y) (4 * (j / 2) + 3).
Proof.
  intros Hx Hy E. pose (env := env2 x y).
  assert (E' : oe_encode_u32_pair x y = (beval env sym_o32p, beval env sym_e32p))
    by (cbv [oe_encode_u32_pair sym_e32p sym_o32p sym_w32 BShlW beval shl env env2]; reflexivity).
  rewrite E' in E; clear E'.
  assert (Ee : e = beval env sym_e32p) by (symmetry; exact (f_equal snd E)).
  assert (Eo : o = beval env sym_o32p) by (symmetry; exact (f_equal fst E)).
  clear E. rewrite glue_lor by auto.
  assert (He : bwf env sym_e32p) by (repeat split; assumption).
  assert (Ho : bwf env sym_o32p) by (repeat split; assumption).
  set (W := BOr (BShl (BV true 32) 32) (BV false 32)).
  assert (HW : bwf env W) by (split; assumption).
  change (N.lor (N.shiftl x 32) y) with (beval env W).
  split; [split|split].
  - subst e; apply (land_mask_lt _ 0xFFFFFFFF); reflexivity.
  - intros j Hj. subst e. apply (bit_chk_ok env 32 sym_e32p (fun j => j) W (fun j => 2 * j)); auto.
  - subst o; apply (land_mask_lt _ 0xFFFFFFFF); reflexivity.
  - intros j Hj. subst o. apply (bit_chk_ok env 32 sym_o32p (fun j => j) W (fun j => 4 * (j / 2) + 3)); auto.
Qed.

(* ---- halves determine the word ---- *)
Lemma halves_inj k w w' o e : w < 2 ^ (2 * k) -> w' < 2 ^ (2 * k) ->
  is_odd_half k w o -> is_even_half k w e -> is_odd_half k w' o -> is_even_half k w' e -> w = w'.
Proof.
  intros Hw Hw' [_ O] [_ E] [_ O'] [_ E']. apply N.bits_inj; intros i.
  destruct (N.ltb_spec i (2 * k)).
  - destruct (N.even i) eqn:Ev.
    + apply N.even_spec in Ev as [j ->]. rewrite <- E, <- E' by lia. reflexivity.
    + rewrite <- N.negb_odd in Ev. apply negb_false_iff, N.odd_spec in Ev as [j ->]. rewrite <- O, <- O' by lia. reflexivity.
  - rewrite !(bits_lt_pow2 _ (2 * k)) by auto. reflexivity.
Qed.
Lemma map_rev_Nseq_S (f : N -> bool) (k : nat) :
  map f (rev (Nseq (N.of_nat (S k)))) = f (N.of_nat k) :: map f (rev (Nseq (N.of_nat k))).
Proof.
  unfold Nseq. rewrite !Nat2N.id. rewrite seq_S, map_app, rev_app_distr. reflexivity.
Qed.
Lemma val_of_bits_spec (k : nat) f :
  val_of_bits (N.of_nat k) f < 2 ^ N.of_nat k /\ forall j, j < N.of_nat k -> N.testbit (val_of_bits (N.of_nat k) f) j = f j.
Proof.
  unfold val_of_bits. induction k as [|k [IH1 IH2]]; [split; [reflexivity|lia]|].
  rewrite map_rev_Nseq_S, bits_val_cons.
  set (v := bits_val _) in *. rewrite map_length, rev_length, Nseq_length, Nat2N.id.
  assert (E : (if f (N.of_nat k) then 2 ^ N.of_nat k else 0) + v = N.lor (N.shiftl (b2N (f (N.of_nat k))) (N.of_nat k)) v).
  { rewrite <- glue_lor by auto. destruct (f (N.of_nat k)); cbn [b2N]; lia. }
  rewrite E. split.
  - rewrite <- E. rewrite Nat2N.inj_succ, N.pow_succ_r'. destruct (f _); lia.
  - intros j Hj. rewrite N.lor_spec. destruct (N.ltb_spec j (N.of_nat k)).
    + rewrite N.shiftl_spec_low by auto. apply IH2; auto.
    + rewrite N.shiftl_spec_high' by auto. assert (j = N.of_nat k) by lia. subst j.
      rewrite N.sub_diag, (bits_lt_pow2 v (N.of_nat k)) by (auto; lia).
      destruct (f (N.of_nat k)); reflexivity.
Qed.
Lemma odd_half_spec k w : is_odd_half k w (odd_half k w).
Proof.
  pose proof (val_of_bits_spec (N.to_nat k) (fun j => N.testbit w (2 * j + 1))) as H.
  rewrite N2Nat.id in H. exact H.
Qed.
Lemma even_half_spec k w : is_even_half k w (even_half k w).
Proof.
  pose proof (val_of_bits_spec (N.to_nat k) (fun j => N.testbit w (2 * j))) as H.
  rewrite N2Nat.id in H. exact H.
Qed.

(* a decoder that meets the specification inverts the specified encoder *)
Definition decodes (k : N) (pair : N -> N -> N * N) : Prop :=
  forall o e hi lo, o < 2 ^ k -> e < 2 ^ k -> pair o e = (hi, lo) ->
  hi < 2 ^ k /\ lo < 2 ^ k /\ is_odd_half k (hi * 2 ^ k + lo) o /\ is_even_half k (hi * 2 ^ k + lo) e.
Lemma decodes_pair k pair x y : decodes k pair -> x < 2 ^ k -> y < 2 ^ k ->
  pair (odd_half k (x * 2 ^ k + y)) (even_half k (x * 2 ^ k + y)) = (x, y).
Proof.
  intros D Hx Hy. set (w := x * 2 ^ k + y).
  destruct (pair (odd_half k w) (even_half k w)) as [hi lo] eqn:E.
  apply D in E as (Hhi & Hlo & Ho & He); [|apply odd_half_spec|apply even_half_spec].
  assert (P2 : 2 ^ (2 * k) = 2 ^ k * 2 ^ k) by (rewrite <- N.pow_add_r; f_equal; lia).
  assert (Ew : hi * 2 ^ k + lo = w).
  { apply (halves_inj k _ _ (odd_half k w) (even_half k w)); auto using odd_half_spec, even_half_spec;
      rewrite P2; unfold w; nia. }
  unfold w in Ew. clear - Ew Hx Hy Hhi Hlo.
  assert (H1 : hi = (hi * 2 ^ k + lo) / 2 ^ k) by (apply (N.div_unique _ _ _ lo); lia).
  assert (H2 : x = (x * 2 ^ k + y) / 2 ^ k) by (apply (N.div_unique _ _ _ y); lia).
  rewrite Ew in H1. assert (E : hi = x) by congruence. clear H1 H2. subst hi. f_equal. lia.
Qed.

Lemma decode_loop_spec pair ps dst : length dst = (2 * length ps)%nat ->
  decode_loop pair (map fst ps) (map snd ps) dst = flat_map (fun p => [fst (pair (fst p) (snd p)); snd (pair (fst p) (snd p))]) ps.
Proof.
  revert dst; induction ps as [|[o e] ps IH]; intros dst H.
  - destruct dst; [reflexivity|discriminate].
  - destruct dst as [|? [|? dst]]; cbn [length] in H; try lia.
    cbn [map fst snd decode_loop flat_map]. destruct (pair o e) as [a b]. cbn [app fst snd].
    rewrite IH by lia. reflexivity.
Qed.
Lemma pairs_length_n n : forall l, length l = (2 * n)%nat -> length (pairs l) = n.
Proof.
  induction n as [|n IH]; intros [|a [|b l]] H; cbn [length] in *; try lia; auto.
  cbn [pairs length]. rewrite IH; lia.
Qed.
Lemma pairs_flat n : forall l, length l = (2 * n)%nat -> flat_map (fun p => [fst p; snd p]) (pairs l) = l.
Proof.
  induction n as [|n IH]; intros [|a [|b l]] H; cbn [length] in *; try lia; auto.
  cbn [pairs flat_map app fst snd]. rewrite IH; auto; lia.
Qed.
Lemma pairs_ok n k : forall l, length l = (2 * n)%nat -> Forall (fun x => x < 2 ^ k) l ->
  Forall (fun p => fst p < 2 ^ k /\ snd p < 2 ^ k) (pairs l).
Proof.
  induction n as [|n IH]; intros [|a [|b l]] H F; cbn [length] in *; try lia; [constructor|].
  cbn [pairs]. inversion F as [|? ? Fa F1]; inversion F1 as [|? ? Fb F2]; subst.
  constructor; auto. apply IH; auto; lia.
Qed.
Lemma flat_map_ext_in' {A B} (f g : A -> list B) l : (forall x, In x l -> f x = g x) -> flat_map f l = flat_map g l.
Proof. induction l as [|a l IH]; intros H; cbn [flat_map]; auto. rewrite (H a), IH; auto. { intros; apply H; right; auto. } left; auto. Qed.

Lemma decode_buf_gen k pair n l dst : decodes k pair ->
  length l = (2 * n)%nat -> length dst = (2 * n)%nat -> Forall (fun x => x < 2 ^ k) l ->
  let src := amiga_encode k l in
  length src = length l /\
  decode_loop pair (firstn (length src / 2) src) (skipn (length src / 2) src) dst = l.
Proof.
  intros D Hl Hd F src.
  assert (Hp : length (pairs l) = n) by (apply pairs_length_n; auto).
  assert (Hs : length src = (2 * n)%nat) by (unfold src, amiga_encode; rewrite app_length, !map_length; lia).
  split; [lia|]. rewrite Hs.
  replace (2 * n / 2)%nat with n by (rewrite Nat.mul_comm, Nat.div_mul; lia).
  unfold src, amiga_encode.
  rewrite firstn_app, skipn_app, !map_length, Hp, Nat.sub_diag. cbn [firstn skipn].
  rewrite app_nil_r, firstn_all2 by (rewrite map_length; lia).
  rewrite skipn_all2 by (rewrite map_length; lia). cbn [app].
  set (ps := map (fun p => (odd_half k (fst p * 2 ^ k + snd p), even_half k (fst p * 2 ^ k + snd p))) (pairs l)).
  replace (map (fun p => odd_half k (fst p * 2 ^ k + snd p)) (pairs l)) with (map fst ps) by (unfold ps; rewrite map_map; reflexivity).
  replace (map (fun p => even_half k (fst p * 2 ^ k + snd p)) (pairs l)) with (map snd ps) by (unfold ps; rewrite map_map; reflexivity).
  rewrite decode_loop_spec by (unfold ps; rewrite map_length; lia).
  unfold ps. rewrite flat_map_concat_map, map_map, <- flat_map_concat_map.
  rewrite <- (pairs_flat n l Hl) at 2. apply flat_map_ext_in'. intros [x y] Hin. cbn [fst snd].
  pose proof (pairs_ok n k l Hl F) as Fp. rewrite Forall_forall in Fp. destruct (Fp _ Hin) as [Hx Hy].
  rewrite (decodes_pair k pair x y D Hx Hy). reflexivity.
Qed.

(* ---- MFM/FM clock-aligned words ---- *)
Definition BBe32 (e : bexp) : bexp :=
  let b k := BAnd (BShr e k) 0xFF in
  BOr (BShl (b 24) 24) (BOr (BShl (b 16) 16) (BOr (BShl (b 8) 8) (BAnd e 0xFF))).
Lemma be32_to_be32 x : x < 2 ^ 32 ->
  be32 (N.land (N.shiftr x 24) 0xFF) (N.land (N.shiftr x 16) 0xFF) (N.land (N.shiftr x 8) 0xFF) (N.land x 0xFF) = x.
Proof.
  intros H. pose (env := env2 x 0). change (beval env (BBe32 (BV true 32)) = x).
  assert (Hw : bwf env (BBe32 (BV true 32))) by (repeat split; assumption).
  apply N.bits_inj; intros i. destruct (N.ltb_spec i 32).
  - apply (bit_chk_ok env 32 (BBe32 (BV true 32)) (fun j => j) (BV true 32) (fun j => j)); auto.
  - rewrite (bits_lt_pow2 x 32) by auto. apply (bits_lt_pow2 _ 32); auto.
    apply lt_pow2_bits. clear i H0. intros i Hi. rewrite bsym_ok by auto.
    assert (E : bsym (BBe32 (BV true 32)) i = []); [|rewrite E; reflexivity].
    cbn [bsym BBe32].
    repeat match goal with |- context [N.testbit 0xFF ?j] => rewrite (bits_lt_pow2 0xFF 8 j) by (try reflexivity; lia) end.
    destruct (i <? 24), (i <? 16), (i <? 8); reflexivity.
Qed.
Lemma mfm_u32_roundtrip v buf : v < 2 ^ 32 -> (8 <= length buf)%nat ->
  oe_decode_raw_u32 (oe_encode_mfm_u32 v buf) = v /\ length (oe_encode_mfm_u32 v buf) = length buf /\
  skipn 8 (oe_encode_mfm_u32 v buf) = skipn 8 buf.
Proof.
  intros Hv Hl. unfold oe_encode_mfm_u32. destruct (Nat.ltb_spec (length buf) 8); [lia|].
  split; [|split; [cbn [length app to_be32]; rewrite skipn_length; lia|reflexivity]].
  unfold to_be32. cbn [app oe_decode_raw_u32].
  rewrite !be32_to_be32 by (apply (land_mask_lt _ 0x55555555); reflexivity).
  pose (env := env2 v 0).
  set (E := BOr (BShlW 32 (BAnd (BAnd (BShr (BV true 32) 1) 0x55555555) 0x55555555) 1) (BAnd (BAnd (BV true 32) 0x55555555) 0x55555555)).
  change (beval env E = v).
  assert (Hw : bwf env E) by (repeat split; assumption).
  apply N.bits_inj; intros i. destruct (N.ltb_spec i 32).
  - apply (bit_chk_ok env 32 E (fun j => j) (BV true 32) (fun j => j)); auto.
  - rewrite (bits_lt_pow2 v 32) by auto. rewrite bsym_ok by auto. unfold E, BShlW; cbn [bsym].
    rewrite !(bits_lt_pow2 _ 32 i) by (auto; reflexivity). reflexivity.
Qed.
Lemma fm_u32_roundtrip v buf : v < 2 ^ 32 -> (8 <= length buf)%nat ->
  oe_decode_raw_u32 (oe_encode_fm_u32 v buf) = v /\ length (oe_encode_fm_u32 v buf) = length buf /\
  skipn 8 (oe_encode_fm_u32 v buf) = skipn 8 buf.
Proof.
  intros Hv Hl. unfold oe_encode_fm_u32. destruct (Nat.ltb_spec (length buf) 8); [lia|].
  split; [|split; [cbn [length app to_be32]; rewrite skipn_length; lia|reflexivity]].
  unfold to_be32. cbn [app oe_decode_raw_u32].
  assert (B : forall x, N.land x 0x55555555 < 2 ^ 32) by (intros; apply (land_mask_lt _ 0x55555555); reflexivity).
  assert (B2 : forall x, N.lor (N.land x 0x55555555) 0xAAAAAAAA < 2 ^ 32).
  { intros x. apply lt_pow2_bits. intros i Hi. rewrite N.lor_spec, !(bits_lt_pow2 _ 32 i) by (auto; reflexivity). reflexivity. }
  rewrite !be32_to_be32 by auto.
  assert (X : forall x, N.land (N.lor (N.land x 0x55555555) 0xAAAAAAAA) 0x55555555 = N.land x 0x55555555).
  { intros x. rewrite N.land_lor_distr_l, <- !N.land_assoc.
    change (N.land 0xAAAAAAAA 0x55555555) with 0. change (N.land 0x55555555 0x55555555) with 0x55555555.
    apply N.lor_0_r. }
  rewrite !X.
  destruct (mfm_u32_roundtrip v buf Hv Hl) as [E _].
  unfold oe_encode_mfm_u32 in E. destruct (Nat.ltb_spec (length buf) 8); [lia|].
  unfold to_be32 in E. cbn [app oe_decode_raw_u32] in E. rewrite !be32_to_be32 in E by auto.
  rewrite <- !N.land_assoc in E. exact E.
Qed.
