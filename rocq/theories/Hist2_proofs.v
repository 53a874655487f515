(* Hist2_proofs.v - numbers: the clock chosen for a standard track. *)
From Verif Require Import Base Base_lemmas Pll_spec Pll_model Hist_model Hist_spec Hist_proofs.
From Coq Require Import QArith Qabs Qround Lia Lqa.
Import ListNotations.
Local Open Scope Q_scope.

Section num.
Variable rd : Q -> Q.
Variable u : Q.
Hypothesis R : rounds_rel rd u.
Hypothesis Hu : 0 <= u <= 1 # 1000000000000.

Lemma rd_pos x : 0 <= x -> x - (1 # 1000000000000) * x <= rd x <= x + (1 # 1000000000000) * x.
Proof.
  intros Hx. pose proof (R x) as H. rewrite (Qabs_pos x Hx) in H. apply Qabs_Qle_condition in H.
  assert (B : u * x <= (1 # 1000000000000) * x) by (apply Qmult_le_compat_r; [apply Hu|exact Hx]). set (z := u * x) in *. clearbody z. lra.
Qed.
Lemma to_ns_in d (lo hi : Z) : (0 <= lo)%Z -> inject_Z lo + 1 <= d * 1000000000 -> d * 1000000000 <= inject_Z hi -> inject_Z hi <= 100000 -> (Z.to_N lo <= to_ns rd d <= Z.to_N hi)%N.
Proof.
  intros H0 A B C. unfold to_ns. set (x := d * 1000000000) in *. assert (L0 : 0 <= inject_Z lo) by (rewrite (Zle_Qle 0 lo) in H0; exact H0).
  destruct (rd_pos x ltac:(lra)) as [D E]. assert (F1 : (lo <= Qfloor (rd x))%Z) by (rewrite <- (Qfloor_Z lo); apply Qfloor_resp_le; lra).
  assert (F2 : (Qfloor (rd x) < hi + 1)%Z) by (rewrite Zlt_Qlt, inject_Z_plus; change (inject_Z 1) with 1; pose proof (Qfloor_le (rd x)); lra). lia.
Qed.
(* the time of a bucket *)
Lemma med_time (m : N) : (m <= 100000)%N -> let t := inject_Z (Z.of_N m) / 1000000000 in t - (1 # 100000000000) * t <= rd (rd t / 2) * 2 <= t + (1 # 100000000000) * t.
Proof.
  intros Hm t. assert (Ht : 0 <= t) by (unfold t; apply Qle_shift_div_l; [reflexivity|]; rewrite Qmult_0_l; change 0 with (inject_Z 0); rewrite <- Zle_Qle; lia). clearbody t.
  destruct (rd_pos t Ht) as [A B]. assert (H2 : 0 <= rd t / 2) by (apply Qle_shift_div_l; [reflexivity|]; lra). destruct (rd_pos _ H2) as [C D].
  assert (E : rd t / 2 * 2 == rd t) by field. set (y := rd t / 2) in *. set (z := rd t) in *. clearbody y z. lra.
Qed.
(* the PLL's period *)
Lemma pll_period_ok clk : 0 < clk -> clk <= 1 # 10 -> exists p, pll_at rd (rd (1 / clk)) = Ok (mkPll p p c20 c65) /\ (999 # 1000) * clk <= p <= (1001 # 1000) * clk.
Proof.
  intros H0 H1. unfold pll_at. set (r := 1 / clk). assert (Er : r * clk == 1) by (unfold r; field; lra). assert (Hr : 10 <= r) by (unfold r; apply Qle_shift_div_l; lra).
  destruct (rd_pos r ltac:(lra)) as [A B]. set (q := rd r) in *. clearbody q r. assert (Hq : 9 <= q) by lra.
  replace (Qlt_bool 1 q) with true by (symmetry; unfold Qlt_bool; rewrite negb_true_iff; apply not_true_iff_false; intros X; apply Qle_bool_iff in X; lra).
  set (z := 1 / q). assert (Ez : z * q == 1) by (unfold z; field; lra).
  assert (Aq : q * clk >= 1 - (1 # 1000000000000)) by (assert (X : (r - (1 # 1000000000000) * r) * clk <= q * clk) by (apply Qmult_le_compat_r; lra); assert (Y : (r - (1 # 1000000000000) * r) * clk == r * clk - (1 # 1000000000000) * (r * clk)) by ring; lra).
  assert (Bq : q * clk <= 1 + (1 # 1000000000000)) by (assert (X : q * clk <= (r + (1 # 1000000000000) * r) * clk) by (apply Qmult_le_compat_r; lra); assert (Y : (r + (1 # 1000000000000) * r) * clk == r * clk + (1 # 1000000000000) * (r * clk)) by ring; lra).
  assert (Z1 : (9995 # 10000) * clk <= z) by (unfold z; apply Qle_shift_div_l; [lra|]; assert (Y : (9995 # 10000) * clk * q == (9995 # 10000) * (q * clk)) by ring; lra).
  assert (Z2 : z <= (10005 # 10000) * clk) by (unfold z; apply Qle_shift_div_r; [lra|]; assert (Y : (10005 # 10000) * clk * q == (10005 # 10000) * (q * clk)) by ring; lra).
  clearbody z. destruct (rd_pos z ltac:(lra)) as [C D]. exists (rd z). split; [reflexivity|]. set (w := rd z) in *. clearbody w. lra.
Qed.
(* refining the clock of a track whose transitions fall into three buckets *)
Lemma refine_ok deltas base X a b c : 0 < X -> (99 # 100) * X <= base <= (10001 # 10000) * X ->
  (forall d, In d deltas -> bucket_of (to_ns rd d) = Some a \/ bucket_of (to_ns rd d) = Some b \/ bucket_of (to_ns rd d) = Some c) ->
  (median a <= 100000)%N -> (median b <= 100000)%N -> (median c <= 100000)%N ->
  (2 * (991 # 1000)) * X <= inject_Z (Z.of_N (median a)) / 1000000000 <= 2 * X -> (28 # 10) * X <= inject_Z (Z.of_N (median b)) / 1000000000 -> (28 # 10) * X <= inject_Z (Z.of_N (median c)) / 1000000000 ->
  (99 # 100) * X <= refine_clock rd base deltas <= (10001 # 10000) * X.
Proof.
  intros HX Hb Hd La Lb Lc Ma Mb Mc. unfold refine_clock. destruct (base_transition_time rd (hist_new rd deltas c02)) as [t|] eqn:E; [|exact Hb].
  destruct (base_time_first _ _ _ E) as (i & Hp & Hi & Hl & ->). rewrite hist_length in Hl. destruct (peak_inhabited _ _ _ _ _ Hl Hp) as (d & Hin & Bd). specialize (Hd d (sample_in _ _ _ _ Hin)). rewrite Bd in Hd.
  assert (Far : forall m : N, (m <= 100000)%N -> (28 # 10) * X <= inject_Z (Z.of_N m) / 1000000000 ->
     Qlt_bool (Qabs (rd (rd (rd (rd (inject_Z (Z.of_N m) / 1000000000) / 2) - base) / base))) (1 # 4) = false).
  { intros m Lm Mm. pose proof (med_time m Lm) as T. cbv zeta in T. set (t := inject_Z (Z.of_N m) / 1000000000) in *. set (p := rd (rd t / 2)) in *. clearbody t p.
    destruct (rd_pos (p - base) ltac:(lra)) as [A1 A2]. set (y := rd (p - base)) in *. clearbody y. assert (Y : (3 # 10) * base <= y) by lra.
    assert (Q1 : (3 # 10) <= y / base) by (apply Qle_shift_div_l; lra). destruct (rd_pos (y / base) ltac:(lra)) as [B1 B2]. set (z := y / base) in *. clearbody z. set (w := rd z) in *. clearbody w.
    unfold Qlt_bool. rewrite negb_false_iff. apply Qle_bool_iff. rewrite Qabs_pos by lra. lra. }
  destruct Hd as [H|[H|H]]; injection H as ->; [|rewrite (Far _ Lb Mb); exact Hb|rewrite (Far _ Lc Mc); exact Hb].
  destruct (Qlt_bool _ _); [|exact Hb]. pose proof (med_time (median a) La) as T. cbv zeta in T. set (t := inject_Z (Z.of_N (median a)) / 1000000000) in *. set (p := rd (rd t / 2)) in *. clearbody t p. lra.
Qed.
End num.
