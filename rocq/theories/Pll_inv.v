(* Pll_inv.v - an invariant of the MFM decoder of Pll_model.v.  Measured against a grid of cells of length P, the state between two transitions
   is (u, d, p): u the phase of the clock, d the error of its period, p the last phase error.  F is a polytope that one transition of 2, 3 or 4
   cells, at most 7.05% of a cell away from the grid, maps into itself (up to the sign of p). *)
From Coq Require Import QArith Lqa.
Local Open Scope Q_scope.

Definition F (P u d p : Q) : Prop :=
  1 * p <= (47497 # 100000) * P /\
  1 * d <= (747 # 20000) * P /\
  (-1) * d <= (753 # 20000) * P /\
  (-1) * u + (-16) * d + (-1 # 2) * p <= (38833 # 50000) * P /\
  (-1) * u + (-8) * d <= (1081 # 2000) * P /\
  1 * u + 2 * d + (1 # 2) * p <= (16449 # 100000) * P /\
  1 * u + (-16) * d <= (56623 # 100000) * P /\
  (-1) * u + (-2) * d + (-1) * p <= (21919 # 100000) * P /\
  1 * u + 1 * d + (1 # 4) * p <= (3179 # 25000) * P /\
  1 * u + (-4) * d + (1 # 4) * p <= (18077 # 100000) * P /\
  (-1) * u <= (4107 # 12500) * P /\
  (-1) * u + (-2) * d + (-2) * p <= (16449 # 100000) * P /\
  16 * d + 1 * p <= (13259 # 20000) * P /\
  (-1) * u + 2 * d + (-1 # 2) * p <= (1781 # 12500) * P /\
  (-1) * u + (-4) * d <= (20737 # 50000) * P /\
  (-1) * u + 8 * d <= (28081 # 100000) * P /\
  (-1) * u + 4 * d + (-1) * p <= (14981 # 100000) * P /\
  (-1) * u + 1 * d <= (31789 # 100000) * P /\
  1 * u + 16 * d + 1 * p <= (68713 # 100000) * P.
(* jitter, arithmetic noise *)
Definition within (b x : Q) : Prop := - b <= x <= b.
Lemma core n P u d p e v1 v2 m : 0 < P -> (n == 2 \/ n == 3 \/ n == 4) -> F P u d p -> 0 <= p ->
  within ((705 # 10000) * P) e -> within ((1 # 10000) * P) v1 -> within ((1 # 10000) * P) v2 ->
  let x := e - u - n * d + (1 # 2) * d in
  0 <= x -> (x <= p /\ m == x \/ p <= x /\ m == p) ->
  forall u' d' p', u' == u + n * d + (65 # 100) * m + v1 -> d' == d + (5 # 100) * x + v2 -> p' == x -> F P u' d' p'.
Proof.
  intros HP Hn HF Hp He H1 H2 x Hx Hm u' d' p' Hu Hd Hp'. unfold F, within in *. subst x.
  destruct Hn as [Hn|[Hn|Hn]]; destruct Hm as [[M1 M2]|[M1 M2]];
    (assert (Nd : n * d == 2 * d \/ n * d == 3 * d \/ n * d == 4 * d) by (rewrite Hn; first [left; reflexivity|right; left; reflexivity|right; right; reflexivity]));
    rewrite Hn in *; clear Nd; repeat match goal with |- _ /\ _ => split end; lra.
Qed.
Lemma core_neg n P u d p e v1 v2 m : 0 < P -> (n == 2 \/ n == 3 \/ n == 4) -> F P u d p -> 0 <= p ->
  within ((705 # 10000) * P) e -> within ((1 # 10000) * P) v1 -> within ((1 # 10000) * P) v2 ->
  let x := e - u - n * d + (1 # 2) * d in
  x <= 0 -> (- x <= p /\ m == x \/ p <= - x /\ m == p) ->
  forall u' d' p', u' == u + n * d + (65 # 100) * m + v1 -> d' == d + v2 -> p' == x -> F P (- u') (- d') (- p').
Proof.
  intros HP Hn HF Hp He H1 H2 x Hx Hm u' d' p' Hu Hd Hp'. unfold F, within in *. subst x.
  destruct Hn as [Hn|[Hn|Hn]]; destruct Hm as [[M1 M2]|[M1 M2]]; rewrite Hn in *; repeat match goal with |- _ /\ _ => split end; lra.
Qed.
(* the first transition *)
Lemma core_first n P u d e v1 v2 : 0 < P -> (n == 2 \/ n == 3 \/ n == 4) -> within ((3 # 100) * P) d -> within ((1 # 10000) * P) (u - (1 # 2) * d) ->
  within ((705 # 10000) * P) e -> within ((1 # 10000) * P) v1 -> within ((1 # 10000) * P) v2 ->
  let x := e - u - n * d + (1 # 2) * d in
  forall u' d' p', u' == u + n * d + v1 -> d' == d + v2 -> p' == x -> (0 <= x -> F P u' d' p') /\ (x <= 0 -> F P (- u') (- d') (- p')).
Proof.
  intros HP Hn Hd0 Hu0 He H1 H2 x u' d' p' Hu Hd Hp'. unfold F, within in *. subst x.
  destruct Hn as [Hn|[Hn|Hn]]; rewrite Hn in *; split; intros Hx; repeat match goal with |- _ /\ _ => split end; lra.
Qed.
(* how far the window can be off *)
Lemma reach n P u d p : 0 < P -> (n == 2 \/ n == 3 \/ n == 4) -> F P u d p -> 0 <= p -> within ((405 # 1000) * P) (u + n * d - (1 # 2) * d).
Proof.
  intros HP Hn HF Hp.
  assert (Z1 : within ((1 # 10000) * P) 0) by (unfold within; lra).
  set (e1 := (705 # 10000) * P). assert (E1 : within ((705 # 10000) * P) e1) by (unfold within, e1; lra).
  assert (E2 : within ((705 # 10000) * P) (- e1)) by (unfold within, e1; lra). unfold within. split.
  - destruct (Qlt_le_dec (e1 - u - n * d + (1 # 2) * d) 0) as [A|A]; [unfold e1 in A; lra|].
    assert (B : F P (u + n * d + (65 # 100) * (if Qlt_le_dec p (e1 - u - n * d + (1 # 2) * d) then p else (e1 - u - n * d + (1 # 2) * d)) + 0) (d + (5 # 100) * (e1 - u - n * d + (1 # 2) * d) + 0) (e1 - u - n * d + (1 # 2) * d)).
    { apply (core n P u d p e1 0 0 (if Qlt_le_dec p (e1 - u - n * d + (1 # 2) * d) then p else (e1 - u - n * d + (1 # 2) * d))); try assumption; try reflexivity.
      destruct (Qlt_le_dec p _) as [C|C]; [right|left]; (split; [lra|reflexivity]). }
    destruct B as [B _]. unfold e1 in *. lra.
  - destruct (Qlt_le_dec 0 (- e1 - u - n * d + (1 # 2) * d)) as [A|A]; [unfold e1 in A; lra|].
    assert (B : F P (- (u + n * d + (65 # 100) * (if Qlt_le_dec p (- (- e1 - u - n * d + (1 # 2) * d)) then p else (- e1 - u - n * d + (1 # 2) * d)) + 0)) (- (d + 0)) (- (- e1 - u - n * d + (1 # 2) * d))).
    { apply (core_neg n P u d p (- e1) 0 0 (if Qlt_le_dec p (- (- e1 - u - n * d + (1 # 2) * d)) then p else (- e1 - u - n * d + (1 # 2) * d))); try assumption; try reflexivity.
      destruct (Qlt_le_dec p _) as [C|C]; [right|left]; (split; [lra|reflexivity]). }
    destruct B as [B _]. unfold e1 in *. lra.
Qed.
Lemma F_bounds P u d p : 0 < P -> F P u d p -> 0 <= p -> within ((4 # 100) * P) d /\ within P u /\ p <= (475 # 1000) * P.
Proof. intros HP HF Hp. unfold F, within in *. repeat split; lra. Qed.
