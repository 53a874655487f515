(* Pll2_proofs.v - the MFM decoder stays locked. *)
From Verif Require Import Base Pll_model Pll_inv Pll_spec Pll_proofs.
From Coq Require Import QArith Qabs Lqa.
Import ListNotations.
Local Open Scope nat_scope.
Local Open Scope Q_scope.

Lemma F_eq P u d p u' d' p' : u == u' -> d == d' -> p == p' -> F P u d p -> F P u' d' p'.
Proof. intros A B C H. unfold F in *. repeat match goal with |- _ /\ _ => split end; lra. Qed.
Lemma abs_lt a b : Qlt_bool (Qabs a) (Qabs b) = true -> (0 <= b -> a < b /\ - a < b) /\ (b <= 0 -> a < - b /\ - a < - b).
Proof. intros H. apply Qlt_bool_iff in H. revert H. apply Qabs_case; apply Qabs_case; intros; split; intros; split; lra. Qed.
Lemma abs_ge a b : Qlt_bool (Qabs a) (Qabs b) = false -> (0 <= a -> b <= a /\ - b <= a) /\ (a <= 0 -> b <= - a /\ - b <= - a).
Proof. intros H. apply Qlt_bool_false in H. revert H. apply Qabs_case; apply Qabs_case; intros; split; intros; split; lra. Qed.
Lemma qn n : (n = 2 \/ n = 3 \/ n = 4)%nat -> Qnat n == 2 \/ Qnat n == 3 \/ Qnat n == 4.
Proof. intros [-> | [-> | ->]]; [left|right; left|right; right]; reflexivity. Qed.

(* locked onto the grid of cells of length P, the last transition being at X *)
Definition locked (P X : Q) (s : Dec) : Prop :=
  let u := d_time s + d_padj s - X - (1 # 2) * P in let d := d_work s - P in let p := d_perr s in
  ((0 < d_gate s)%Z /\ 0 <= p /\ F P u d p) \/ ((d_gate s < 0)%Z /\ p <= 0 /\ F P (- u) (- d) (- p)).
Lemma gate_pos g p : 0 <= p -> (gate_of g p > 0)%Z /\ ((1 <? Z.abs (gate_of g p)) = (0 <? g))%Z.
Proof. intros H. apply Qlt_bool_false in H. unfold gate_of. rewrite H. destruct (Z.ltb_spec 0 g); split; try reflexivity; try lia. Qed.
Lemma gate_neg g p : p < 0 -> (gate_of g p < 0)%Z /\ ((1 <? Z.abs (gate_of g p)) = (g <? 0))%Z.
Proof. intros H. apply Qlt_bool_iff in H. unfold gate_of. rewrite H. destruct (Z.ltb_spec g 0); split; try reflexivity; try lia. Qed.

Section Rounding.
Context (rd : Q -> Q) (M eps : Q) (R : rounds rd M eps).

Lemma locked_step fuel lo hi s delta n P X S A : locked P X s ->
  (n = 2 \/ n = 3 \/ n = 4)%nat -> (4 <= fuel)%nat -> 0 < P -> 0 <= eps -> A + 20 * eps <= (5 # 10000) * P -> 0 <= A -> 20 * eps <= (5 # 100000) * P -> 0 <= X -> X + 10 * P <= M ->
  within A (d_last s - S) -> within ((7 # 100) * P) (S - X) -> within ((7 # 100) * P) (S + delta - X - Qnat n * P) ->
  lo <= (9 # 10) * P -> (11 # 10) * P <= hi ->
  exists s', mfm_step rd fuel lo hi s delta = Some s' /\ d_bits s' = (d_bits s ++ emit n)%list /\ d_stats s' = count_flux n (d_stats s) /\
    within (A + eps) (d_last s' - (S + delta)) /\ locked P (X + Qnat n * P) s'.
Proof.
  intros HL Hn Hf HP He HA HA0 HeP HX HXM Hl HS Hj Hlo Hhi.
  set (u := d_time s + d_padj s - X - (1 # 2) * P). set (d := d_work s - P).
  assert (HB : within ((4 # 100) * P) d /\ within P u /\ within ((475 # 1000) * P) (d_perr s) /\ within ((405 # 1000) * P) (u + Qnat n * d - (1 # 2) * d)).
  { destruct HL as [(G & Hp & HF)|(G & Hp & HF)]; fold u d in HF.
    - destruct (F_bounds _ _ _ _ HP HF Hp) as (B1 & B2 & B3). pose proof (reach _ _ _ _ _ HP (qn n Hn) HF Hp) as B4. unfold within in *. repeat split; lra.
    - assert (Hp' : 0 <= - d_perr s) by lra. destruct (F_bounds _ _ _ _ HP HF Hp') as (B1 & B2 & B3). pose proof (reach _ _ _ _ _ HP (qn n Hn) HF Hp') as B4.
      assert (E : - u + Qnat n * - d - (1 # 2) * - d == - (u + Qnat n * d - (1 # 2) * d)) by ring.
      unfold within in *. rewrite E in B4. repeat split; lra. }
  destruct HB as (B1 & B2 & B3 & B4).
  destruct (step_ok rd M eps R fuel lo hi s delta n P X S A Hn Hf HP He HA HA0 HeP HX HXM B1 B4 B2 ltac:(unfold within in *; lra) Hl HS Hj Hlo Hhi)
    as (s' & E & Eb & Es & El & Eg & e & v1 & v2 & We & W1 & W2 & Ep & Eu & Ew).
  fold u d in Ep, Eu, Ew.
  exists s'. split; [exact E|]. split; [exact Eb|]. split; [exact Es|]. split; [exact El|]. unfold locked. rewrite Eg.
  set (u' := d_time s' + d_padj s' - (X + Qnat n * P) - (1 # 2) * P) in *. set (d' := d_work s' - P) in *. rewrite Eg in Ew.
  set (p' := d_perr s') in *. clearbody u' d' p'. clear El Es Eb E Eg.
  pose proof (qn n Hn) as Qn. set (m := Qnat n) in *.
  destruct (Qlt_le_dec p' 0) as [Neg|Pos].
  - right. destruct (gate_neg (d_gate s) p' Neg) as [G1 G2]. rewrite G2 in Ew. split; [exact G1|]. split; [lra|].
    destruct HL as [(G & Hp & HF)|(G & Hp & HF)]; fold u d in HF.
    + replace (d_gate s <? 0)%Z with false in Ew by (symmetry; apply Z.ltb_ge; lia).
      apply (core_neg m P u d (d_perr s) e v1 v2 (least_of p' (d_perr s))); try assumption.
      * lra.
      * unfold least_of. destruct (Qlt_bool _ _) eqn:Q1; [left|right]; (split; [|lra || reflexivity]).
        -- destruct (proj1 (abs_lt _ _ Q1) Hp). lra.
        -- destruct (proj2 (abs_ge _ _ Q1) ltac:(lra)). lra.
      * lra.
    + replace (d_gate s <? 0)%Z with true in Ew by (symmetry; apply Z.ltb_lt; lia).
      assert (Wn : forall b x, within b x -> within b (- x)) by (unfold within; intros; lra).
      assert (Ex : - e - - u - m * - d + (1 # 2) * - d == - p') by (rewrite Ep; ring).
      apply (core m P (- u) (- d) (- d_perr s) (- e) (- v1) (- v2) (- least_of p' (d_perr s))); try apply Wn; try assumption.
      * lra.
      * rewrite Ex. lra.
      * unfold least_of. destruct (Qlt_bool _ _) eqn:Q1; [left|right]; (split; [|lra || reflexivity]).
        -- destruct (proj2 (abs_lt _ _ Q1) Hp). lra.
        -- destruct (proj2 (abs_ge _ _ Q1) ltac:(lra)). lra.
      * rewrite Eu. ring.
      * rewrite Ew, Ex. ring.
      * symmetry. exact Ex.
  - left. destruct (gate_pos (d_gate s) p' Pos) as [G1 G2]. rewrite G2 in Ew. split; [lia|]. split; [exact Pos|].
    destruct HL as [(G & Hp & HF)|(G & Hp & HF)]; fold u d in HF.
    + replace (0 <? d_gate s)%Z with true in Ew by (symmetry; apply Z.ltb_lt; lia).
      apply (core m P u d (d_perr s) e v1 v2 (least_of p' (d_perr s))); try assumption.
      * lra.
      * unfold least_of. destruct (Qlt_bool _ _) eqn:Q1; [left|right]; (split; [|lra || reflexivity]).
        -- destruct (proj1 (abs_lt _ _ Q1) Hp). lra.
        -- destruct (proj1 (abs_ge _ _ Q1) Pos). lra.
      * rewrite Ew, Ep. ring.
    + replace (0 <? d_gate s)%Z with false in Ew by (symmetry; apply Z.ltb_ge; lia).
      assert (Wn : forall b x, within b x -> within b (- x)) by (unfold within; intros; lra).
      assert (Ex : - e - - u - m * - d + (1 # 2) * - d == - p') by (rewrite Ep; ring).
      apply (F_eq P (- - u') (- - d') (- - p')); try ring.
      apply (core_neg m P (- u) (- d) (- d_perr s) (- e) (- v1) (- v2) (- least_of p' (d_perr s))); try apply Wn; try assumption.
      * lra.
      * rewrite Ex. lra.
      * unfold least_of. destruct (Qlt_bool _ _) eqn:Q1; [left|right]; (split; [|lra || reflexivity]).
        -- destruct (proj2 (abs_lt _ _ Q1) Hp). lra.
        -- destruct (proj1 (abs_ge _ _ Q1) Pos). lra.
      * rewrite Eu. ring.
      * rewrite Ew. ring.
      * symmetry. exact Ex.
Qed.

(* the first transition *)
Lemma first_step fuel lo hi W total delta n P : 
  (n = 2 \/ n = 3 \/ n = 4)%nat -> (4 <= fuel)%nat -> 0 < P -> 0 <= eps -> 20 * eps <= (5 # 100000) * P -> 10 * P <= M ->
  within ((3 # 100) * P) (W - P) -> within ((7 # 100) * P) (delta - Qnat n * P) -> lo <= (9 # 10) * P -> (11 # 10) * P <= hi ->
  exists s', mfm_step rd fuel lo hi (mkDec (rd (W / 2)) 0 0 0 0 W [] 0 [] total) delta = Some s' /\ d_bits s' = emit n /\ d_stats s' = count_flux n total /\
    within eps (d_last s' - delta) /\ locked P (Qnat n * P) s'.
Proof.
  intros Hn Hf HP He HeP HM HW Hj Hlo Hhi. set (s := mkDec _ _ _ _ _ _ _ _ _ _).
  assert (HW2 : within eps (rd (W / 2) - W / 2)) by (apply (rounded _ _ _ R); unfold within in *; assert (E : W / 2 == (1 # 2) * W) by field; rewrite E; lra).
  assert (E2 : W / 2 == (1 # 2) * W) by field.
  assert (Qm : Qnat n * (W - P) == 2 * (W - P) \/ Qnat n * (W - P) == 3 * (W - P) \/ Qnat n * (W - P) == 4 * (W - P)).
  { destruct (qn n Hn) as [E|[E|E]]; rewrite E; [left|right; left|right; right]; reflexivity. }
  assert (Hu : within eps (d_time s + d_padj s - 0 - (1 # 2) * P - (1 # 2) * (W - P))) by (cbn [s d_time d_padj]; unfold within in *; clear - HW2 E2 HP HW; revert HW2 E2; generalize (rd (W / 2)) (W / 2); intros; lra).
  destruct (step_ok rd M eps R fuel lo hi s delta n P 0 0 0 Hn Hf HP He ltac:(lra) ltac:(lra) HeP ltac:(lra) ltac:(lra))
    as (s' & E & Eb & Es & El & Eg & e & v1 & v2 & We & W1 & W2 & Ep & Eu & Ew); try assumption.
  - cbn [s d_work]. unfold within in *. lra.
  - cbn [s d_work] in *. unfold within in *. destruct Qm as [Q1|[Q1|Q1]]; rewrite Q1; split; lra.
  - unfold within in *. lra.
  - cbn [s d_perr]. unfold within. lra.
  - cbn [s d_last]. unfold within. lra.
  - unfold within. lra.
  - unfold within in *. lra.
  - exists s'. split; [exact E|]. split; [exact Eb|]. split; [exact Es|]. split; [unfold within in *; lra|].
    set (u := d_time s + d_padj s - 0 - (1 # 2) * P) in *.
    change (d_gate s) with 0%Z in Eg. change (d_perr s) with 0 in Eu.
    assert (Lz : least_of (d_perr s') 0 == 0).
    { unfold least_of. destruct (Qlt_bool _ _) eqn:Q1; [|reflexivity]. apply abs_lt in Q1 as [Q1 _]. specialize (Q1 ltac:(lra)). lra. }
    rewrite Lz in Eu. unfold locked. rewrite Eg.
    set (u' := d_time s' + d_padj s' - (0 + Qnat n * P) - (1 # 2) * P) in *.
    assert (Eu2 : d_time s' + d_padj s' - Qnat n * P - (1 # 2) * P == u') by (unfold u'; ring).
    set (d' := d_work s' - P) in *. rewrite Eg in Ew. change (d_work s) with W in *. set (p' := d_perr s') in *.
    assert (Ew2 : d' == W - P + v2).
    { rewrite Ew. destruct (Qlt_le_dec p' 0) as [Neg|Pos]; [destruct (gate_neg 0 p' Neg) as [_ G]|destruct (gate_pos 0 p' Pos) as [_ G]]; rewrite G; cbn; ring. }
    destruct (core_first (Qnat n) P u (W - P) e v1 v2 HP (qn n Hn) HW ltac:(unfold within in *; lra) We W1 W2 u' d' p' ltac:(rewrite Eu; ring) Ew2 Ep) as [C1 C2].
    clearbody u'. destruct (Qlt_le_dec p' 0) as [Neg|Pos]; [right|left].
    + destruct (gate_neg 0 p' Neg) as [G _]. split; [exact G|]. split; [lra|]. eapply F_eq; [| | |apply C2; rewrite <- Ep; lra]; [rewrite Eu2; reflexivity|reflexivity|reflexivity].
    + destruct (gate_pos 0 p' Pos) as [G _]. split; [lia|]. split; [exact Pos|]. eapply F_eq; [| | |apply C1; rewrite <- Ep; exact Pos]; [rewrite Eu2; reflexivity|reflexivity|reflexivity].
Qed.
End Rounding.
