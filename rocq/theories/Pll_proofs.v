(* Pll_proofs.v - one transition of the MFM decoder, with rounding. *)
From Verif Require Import Base Pll_model Pll_inv Pll_spec.
From Coq Require Import QArith Qabs Lqa.
Import ListNotations.
Local Open Scope nat_scope.
Local Open Scope Q_scope.

Lemma Qlt_bool_iff a b : Qlt_bool a b = true <-> a < b.
Proof. unfold Qlt_bool. rewrite Bool.negb_true_iff. split; intros H.
  - apply Qnot_le_lt. intros G. apply Qle_bool_iff in G. congruence.
  - destruct (Qle_bool b a) eqn:E; [|reflexivity]. apply Qle_bool_iff in E. lra. Qed.
Lemma Qlt_bool_false a b : Qlt_bool a b = false <-> b <= a.
Proof. unfold Qlt_bool. rewrite Bool.negb_false_iff. apply Qle_bool_iff. Qed.
Lemma within_abs b x : within b x <-> Qabs x <= b.
Proof. unfold within. symmetry. apply Qabs_Qle_condition. Qed.

Section Rounding.
Context (rd : Q -> Q) (M eps : Q) (R : rounds rd M eps).
Lemma rounded x : within M x -> within eps (rd x - x).
Proof. intros H. apply (proj2 (within_abs _ _)), R, (proj1 (within_abs _ _)), H. Qed.
Lemma tick_stop fuel time target w : target <= time -> ticks rd fuel time target w = Some (0%nat, time).
Proof. intros H. destruct fuel; cbn [ticks]; apply Qlt_bool_false in H; rewrite H; reflexivity. Qed.
Lemma tick_go fuel time target w : time < target ->
  ticks rd (S fuel) time target w = match ticks rd fuel (rd (time + w)) target w with Some (k, t) => Some (S k, t) | None => None end.
Proof. intros H. cbn [ticks]. apply Qlt_bool_iff in H. rewrite H. reflexivity. Qed.
Ltac rnd x := let H := fresh "Hr" in pose proof (rounded x) as H; unfold within in H;
  match type of H with ?A -> _ => let G := fresh in assert (G : A) by lra; specialize (H G); clear G end; generalize dependent (rd x); intros.
Lemma ticks_ok n fuel time target w : (n = 2 \/ n = 3 \/ n = 4)%nat -> (4 <= fuel)%nat -> 0 <= eps -> 4 * eps < w ->
  - M <= time -> time + Qnat n * w + 4 * eps <= M -> time + (Qnat n - 1) * w + 4 * eps < target -> target <= time + Qnat n * w - 4 * eps ->
  exists t, ticks rd fuel time target w = Some (n, t) /\ within (4 * eps) (t - (time + Qnat n * w)).
Proof.
  intros Hn Hf He Hw HM1 HM2 Hlo Hhi. do 4 (destruct fuel as [|fuel]; [exfalso; lia|]). clear Hf. unfold Qnat in *.
  destruct Hn as [-> | [-> | ->]]; cbn [Z.of_nat Pos.of_succ_nat Pos.succ] in *; unfold inject_Z in *.
  - rewrite tick_go by lra. rnd (time + w). rewrite tick_go by lra. rnd (q + w). rewrite tick_stop by lra. eexists. split; [reflexivity|]. unfold within. lra.
  - rewrite tick_go by lra. rnd (time + w). rewrite tick_go by lra. rnd (q + w). rewrite tick_go by lra. rnd (q0 + w). rewrite tick_stop by lra. eexists. split; [reflexivity|]. unfold within. lra.
  - rewrite tick_go by lra. rnd (time + w). rewrite tick_go by lra. rnd (q + w). rewrite tick_go by lra. rnd (q0 + w). rewrite tick_go by lra. rnd (q1 + w). rewrite tick_stop by lra. eexists. split; [reflexivity|]. unfold within. lra.
Qed.

Definition gate_of (g : Z) (perr : Q) : Z :=
  if Qlt_bool perr 0 then (if g <? 0 then g - 1 else -1)%Z else (if 0 <? g then g + 1 else 1)%Z.
Definition least_of (perr last : Q) : Q := if Qlt_bool (Qabs perr) (Qabs last) then perr else last.
Lemma clamp_id lo hi x : lo <= x -> x <= hi -> Qclamp lo hi x = x.
Proof. intros A B. unfold Qclamp. apply Qlt_bool_false in A. apply Qlt_bool_false in B. rewrite A, B. reflexivity. Qed.
Lemma least_within b perr last : within b perr -> within b last -> within b (least_of perr last).
Proof. intros A B. unfold least_of. destruct (Qlt_bool _ _); assumption. Qed.
Lemma c65_ok x P : 0 < P -> within P x -> within ((1 # 1000000) * P) (c65 * x - (65 # 100) * x).
Proof. unfold within, c65. intros. lra. Qed.
Lemma c05_ok x P : 0 < P -> within P x -> within ((1 # 1000000) * P) (c05 * x - (5 # 100) * x).
Proof. unfold within, c05. intros. lra. Qed.

Lemma step_ok fuel lo hi s delta n P X S A :
  let u := d_time s + d_padj s - X - (1 # 2) * P in let d := d_work s - P in
  (n = 2 \/ n = 3 \/ n = 4)%nat -> (4 <= fuel)%nat -> 0 < P -> 0 <= eps -> A + 20 * eps <= (5 # 10000) * P -> 0 <= A -> 20 * eps <= (5 # 100000) * P -> 0 <= X -> X + 10 * P <= M ->
  within ((4 # 100) * P) d -> within ((405 # 1000) * P) (u + Qnat n * d - (1 # 2) * d) -> within P u -> within ((1 # 2) * P) (d_perr s) ->
  within A (d_last s - S) -> within ((7 # 100) * P) (S - X) -> within ((7 # 100) * P) (S + delta - X - Qnat n * P) ->
  lo <= (9 # 10) * P -> (11 # 10) * P <= hi ->
  exists s', mfm_step rd fuel lo hi s delta = Some s' /\ d_bits s' = d_bits s ++ emit n /\ d_stats s' = count_flux n (d_stats s) /\
    within (A + eps) (d_last s' - (S + delta)) /\ d_gate s' = gate_of (d_gate s) (d_perr s') /\
    exists e v1 v2, within ((705 # 10000) * P) e /\ within ((1 # 10000) * P) v1 /\ within ((1 # 10000) * P) v2 /\
      d_perr s' == e - u - Qnat n * d + (1 # 2) * d /\
      d_time s' + d_padj s' - (X + Qnat n * P) - (1 # 2) * P == u + Qnat n * d + (65 # 100) * least_of (d_perr s') (d_perr s) + v1 /\
      d_work s' - P == d + (if (1 <? Z.abs (d_gate s'))%Z then (5 # 100) * d_perr s' else 0) + v2.
Proof.
  intros u d Hn Hf HP He HA HA0 HeP HX HXM Hd Hx Hu Hq Hl HS Hj Hlo Hhi.
  assert (NP : Qnat n * P == 2 * P /\ Qnat n * d == 2 * d /\ Qnat n * d_work s == 2 * d_work s /\ (Qnat n - 1) * d_work s == d_work s \/
    Qnat n * P == 3 * P /\ Qnat n * d == 3 * d /\ Qnat n * d_work s == 3 * d_work s /\ (Qnat n - 1) * d_work s == 2 * d_work s \/
    Qnat n * P == 4 * P /\ Qnat n * d == 4 * d /\ Qnat n * d_work s == 4 * d_work s /\ (Qnat n - 1) * d_work s == 3 * d_work s).
  { destruct Hn as [-> | [-> | ->]]; [left|right; left|right; right]; unfold Qnat; cbn [Z.of_nat Pos.of_succ_nat Pos.succ]; unfold inject_Z; repeat split; ring. }
  assert (HA' : within A A) by (unfold within; lra).
  unfold mfm_step. cbv zeta.
  unfold within in *. 
  assert (Hdl : d_last s + delta <= M /\ - M <= d_last s + delta) by (destruct NP as [(N1 & N2 & N3 & N4)|[(N1 & N2 & N3 & N4)|(N1 & N2 & N3 & N4)]]; rewrite N1 in Hj; split; lra).
  pose proof (rounded (d_last s + delta)) as R1. unfold within in R1. specialize (R1 ltac:(lra)). set (this := rd (d_last s + delta)) in *. clearbody this.
  pose proof (rounded (d_time s + d_padj s)) as R2. unfold within in R2. specialize (R2 ltac:(unfold u in Hu; lra)). set (t0 := rd (d_time s + d_padj s)) in *. clearbody t0.
  assert (Ht0 : - eps <= t0 - (u + X + (1 # 2) * P) <= eps) by (unfold u; lra).
  assert (Hw : d_work s == P + d) by (unfold d; lra).
  assert (NPw : Qnat n * d_work s == Qnat n * P + Qnat n * d) by (rewrite Hw; ring).
  assert (NPw1 : (Qnat n - 1) * d_work s == Qnat n * P + Qnat n * d - P - d) by (rewrite Hw; ring).
  assert (HnP : 2 * P <= Qnat n * P <= 4 * P) by (destruct NP as [(N1 & _)|[(N1 & _)|(N1 & _)]]; rewrite N1; lra).
  clear NP. set (nP := Qnat n * P) in *. set (nd := Qnat n * d) in *. clearbody nP nd u d.
  destruct (ticks_ok n fuel t0 this (d_work s) Hn Hf He) as (time & Et & Ht); [lra|lra|lra|rewrite NPw1; lra|rewrite NPw; lra|].
  rewrite Et. unfold within in Ht. rewrite NPw in Ht. clear NPw NPw1.
  pose proof (rounded (time - this)) as R3. unfold within in R3. specialize (R3 ltac:(lra)). set (r3 := rd (time - this)) in *. clearbody r3.
  pose proof (rounded (r3 + delta)) as R4. unfold within in R4. specialize (R4 ltac:(lra)). set (wmax := rd (r3 + delta)) in *. clearbody wmax.
  assert (H2 : d_work s / 2 == (1 # 2) * d_work s) by (field).
  pose proof (rounded (d_work s / 2)) as R5. unfold within in R5. set (whalf := rd (d_work s / 2)) in *. clearbody whalf. set (hw := d_work s / 2) in *. clearbody hw. specialize (R5 ltac:(lra)).
  pose proof (rounded (wmax - whalf)) as R6. unfold within in R6. specialize (R6 ltac:(lra)). set (wc := rd (wmax - whalf)) in *. clearbody wc.
  pose proof (rounded (delta - wc)) as R7. unfold within in R7. specialize (R7 ltac:(lra)). set (perr := rd (delta - wc)) in *. clearbody perr.
  assert (HE : - (705 # 10000) * P <= perr + u + nd - (1 # 2) * d <= (705 # 10000) * P) by lra.
  assert (Hpe : - (1 # 2) * P <= perr <= (1 # 2) * P) by lra.
  fold (gate_of (d_gate s) perr). fold (least_of perr (d_perr s)).
  pose proof (least_within ((1 # 2) * P) perr (d_perr s)) as HLst. unfold within in HLst. specialize (HLst ltac:(lra) ltac:(lra)).
  set (least := least_of perr (d_perr s)) in *.
  pose proof (c65_ok least P HP) as C1. unfold within in C1. specialize (C1 ltac:(lra)). pose proof (c05_ok perr P HP) as C2. unfold within in C2. specialize (C2 ltac:(lra)).
  set (m65 := c65 * least) in *. set (m05 := c05 * perr) in *. clearbody m65 m05.
  pose proof (rounded m65) as R8. unfold within in R8. specialize (R8 ltac:(lra)). set (padj := rd m65) in *. clearbody padj.
  pose proof (rounded m05) as R9. unfold within in R9. specialize (R9 ltac:(lra)). set (clk0 := rd m05) in *. clearbody clk0.
  set (gt := gate_of (d_gate s) perr) in *.
  set (clk := if (1 <? Z.abs gt)%Z then clk0 else 0).
  assert (Hclk : - eps <= clk - (if (1 <? Z.abs gt)%Z then m05 else 0) <= eps) by (unfold clk; destruct (1 <? Z.abs gt)%Z; lra).
  assert (Hclk2 : - (3 # 100) * P <= (if (1 <? Z.abs gt)%Z then m05 else 0) <= (3 # 100) * P) by (destruct (1 <? Z.abs gt)%Z; lra).
  assert (Hclk3 : - (1 # 1000000) * P <= (if (1 <? Z.abs gt)%Z then m05 else 0) - (if (1 <? Z.abs gt)%Z then (5 # 100) * perr else 0) <= (1 # 1000000) * P) by (destruct (1 <? Z.abs gt)%Z; lra).
  set (m05' := if (1 <? Z.abs gt)%Z then m05 else 0) in *. clearbody clk. clearbody m05'.
  pose proof (rounded (d_work s + clk)) as R10. unfold within in R10. specialize (R10 ltac:(lra)). set (w1 := rd (d_work s + clk)) in *. clearbody w1.
  rewrite clamp_id by lra.
  eexists. split; [reflexivity|]. cbn [d_bits d_stats d_last d_gate d_perr d_time d_padj d_work].
  split; [reflexivity|]. split; [reflexivity|]. split; [lra|]. split; [reflexivity|].
  set (k05 := if (1 <? Z.abs gt)%Z then (5 # 100) * perr else 0) in *. clearbody k05. fold least. clearbody least gt.
  exists (perr + u + nd - (1 # 2) * d), (time + padj - (X + nP) - (1 # 2) * P - u - nd - (65 # 100) * least), (w1 - P - d - k05).
  split; [lra|]. split; [lra|]. split; [lra|]. split; [lra|]. split; [clear; ring|]. clear. ring.
Qed.
End Rounding.
