(* Pll3_proofs.v - a whole revolution. *)
From Verif Require Import Base Pll_model Pll_inv Pll_spec Pll_proofs Pll2_proofs.
From Coq Require Import QArith Qabs Lqa Lia.
Import ListNotations.
Local Open Scope nat_scope.
Local Open Scope Q_scope.

Lemma emit_cells n : (1 <= n)%nat -> emit n = (repeat false (n - 1) ++ [true])%list.
Proof. destruct n; [lia|]. intros _. cbn [emit Nat.sub]. rewrite Nat.sub_0_r. reflexivity. Qed.
Lemma Qnat_S n : Qnat (S n) == Qnat n + 1.
Proof. unfold Qnat. rewrite Nat2Z.inj_succ, <- Z.add_1_r, inject_Z_plus. reflexivity. Qed.
Lemma Qnat_add a b : Qnat (a + b) == Qnat a + Qnat b.
Proof. unfold Qnat. rewrite Nat2Z.inj_add, inject_Z_plus. reflexivity. Qed.
Lemma Qnat_nonneg n : 0 <= Qnat n.
Proof. unfold Qnat. change 0 with (inject_Z 0). rewrite <- Zle_Qle. lia. Qed.
Lemma gap_cases n : (2 <= n <= 4)%nat -> (n = 2 \/ n = 3 \/ n = 4)%nat. Proof. lia. Qed.

Section Rounding.
Context (rd : Q -> Q) (M eps : Q) (R : rounds rd M eps).
Lemma locked_loop fuel lo hi P : (4 <= fuel)%nat -> 0 < P -> 0 <= eps -> 20 * eps <= (5 # 100000) * P -> lo <= (9 # 10) * P -> (11 # 10) * P <= hi ->
  forall gaps deltas s X S A, locked P X s -> mfm_gaps gaps -> length deltas = length gaps ->
    0 <= A -> A + (Qnat (length gaps) + 20) * eps <= (5 # 10000) * P -> 0 <= X -> X + P * Qnat (list_sum gaps) + 10 * P <= M ->
    within A (d_last s - S) ->
    (forall k, (k <= length gaps)%nat -> within ((7 # 100) * P) (S + Qsum (firstn k deltas) - (X + P * Qnat (list_sum (firstn k gaps))))) ->
    exists s', mfm_loop rd fuel lo hi deltas s = Some s' /\ d_bits s' = (d_bits s ++ cells_of gaps)%list /\
      d_stats s' = fold_left (fun st n => count_flux n st) gaps (d_stats s).
Proof.
  intros Hf HP He HeP Hlo Hhi. induction gaps as [|n gaps IH]; intros deltas s X S A HL HG Hlen HA0 HA HX HM Hl Hj.
  - destruct deltas; [|discriminate]. exists s. cbn [mfm_loop]. split; [reflexivity|]. split; [cbn; rewrite app_nil_r; reflexivity|reflexivity].
  - destruct deltas as [|delta deltas]; [discriminate|]. injection Hlen as Hlen.
    pose proof (Forall_inv HG) as Hn. pose proof (Forall_inv_tail HG) as HG'. cbn beta in Hn.
    cbn [length] in HA. rewrite Qnat_S in HA. cbn [list_sum fold_right] in HM. fold (list_sum gaps) in HM. rewrite Qnat_add in HM.
    assert (HPn : P * Qnat n == Qnat n * P) by ring. assert (HPg : 0 <= P * Qnat (list_sum gaps)) by (apply Qmult_le_0_compat; [lra|apply Qnat_nonneg]).
    assert (HPn0 : 0 <= Qnat n * P) by (apply Qmult_le_0_compat; [apply Qnat_nonneg|lra]).
    assert (HLe : 0 <= Qnat (length gaps) * eps) by (apply Qmult_le_0_compat; [apply Qnat_nonneg|exact He]).
    assert (Hdist : (Qnat (length gaps) + 1 + 20) * eps == Qnat (length gaps) * eps + 21 * eps) by ring. rewrite Hdist in HA.
    assert (HM' : X + Qnat n * P + P * Qnat (list_sum gaps) + 10 * P <= M) by (rewrite <- HPn; lra).
    pose proof (Hj 0%nat ltac:(lia)) as J0. pose proof (Hj 1%nat ltac:(cbn [length]; lia)) as J1.
    cbn [firstn Qsum fold_right list_sum] in J0, J1. change (Qnat 0) with 0 in J0. rewrite Nat.add_0_r in J1.
    assert (J0' : within ((7 # 100) * P) (S - X)) by (unfold within in *; lra).
    assert (J1' : within ((7 # 100) * P) (S + delta - X - Qnat n * P)) by (unfold within in *; rewrite HPn in J1; lra).
    destruct (locked_step rd M eps R fuel lo hi s delta n P X S A HL (gap_cases n Hn) Hf HP He) as (s1 & E1 & Eb & Es & El & HL1); try assumption.
    { lra. } { lra. }
    assert (Hrest : forall k, (k <= length gaps)%nat ->
      within ((7 # 100) * P) (S + delta + Qsum (firstn k deltas) - (X + Qnat n * P + P * Qnat (list_sum (firstn k gaps))))).
    { intros k Hk. pose proof (Hj (Datatypes.S k) ltac:(cbn [length]; lia)) as J. cbn [firstn Qsum fold_right list_sum] in J.
      fold (Qsum (firstn k deltas)) in J. fold (list_sum (firstn k gaps)) in J. unfold within in J. rewrite Qnat_add in J.
      assert (Eq : S + (delta + Qsum (firstn k deltas)) - (X + P * (Qnat n + Qnat (list_sum (firstn k gaps)))) ==
        S + delta + Qsum (firstn k deltas) - (X + Qnat n * P + P * Qnat (list_sum (firstn k gaps)))) by ring.
      unfold within in *. rewrite Eq in J. exact J. }
    destruct (IH deltas s1 (X + Qnat n * P) (S + delta) (A + eps) HL1 HG' Hlen) as (s2 & E2 & Eb2 & Es2); try assumption.
    { lra. }
    { assert (Ed : (Qnat (length gaps) + 20) * eps == Qnat (length gaps) * eps + 20 * eps) by ring. rewrite Ed. lra. }
    { lra. }
    exists s2. cbn [mfm_loop]. rewrite E1, E2. split; [reflexivity|]. split.
    + rewrite Eb2, Eb, <- app_assoc. unfold cells_of. cbn [flat_map]. rewrite emit_cells by lia. reflexivity.
    + rewrite Es2, Es. reflexivity.
Qed.
Lemma decode_mfm_ok fuel pll P gaps deltas : (4 <= fuel)%nat -> 0 < P -> pll_work pll = pll_period pll -> pll_adj pll = c20 ->
  within ((3 # 100) * P) (pll_period pll - P) -> mfm_gaps gaps -> near P ((7 # 100) * P) gaps deltas ->
  0 <= eps -> (Qnat (length gaps) + 20) * eps <= (5 # 100000) * P -> P * Qnat (list_sum gaps) + 10 * P <= M ->
  exists s, decode_mfm rd fuel pll deltas = Some (s, mkPll (pll_period pll) (d_work s) (pll_adj pll) (pll_gain pll)) /\
    d_bits s = cells_of gaps /\ d_stats s = fold_left (fun st n => count_flux n st) gaps (mkStats (length gaps) 0 0 0 0 0).
Proof.
  intros Hf HP Hw Hadj HW HG [Hlen Hj] He HA HM. unfold decode_mfm. rewrite Hw, Hadj. set (W := pll_period pll) in *. unfold mfm_start. fold W. rewrite Hlen.
  assert (HPg : 0 <= P * Qnat (list_sum gaps)) by (apply Qmult_le_0_compat; [lra|apply Qnat_nonneg]).
  assert (HLe : 0 <= Qnat (length gaps) * eps) by (apply Qmult_le_0_compat; [apply Qnat_nonneg|exact He]).
  assert (Hdist : (Qnat (length gaps) + 20) * eps == Qnat (length gaps) * eps + 20 * eps) by ring. rewrite Hdist in HA.
  unfold clock_limits. set (lo := rd (W - rd (W * c20))). set (hi := rd (W + rd (W * c20))).
  assert (Hlim : lo <= (9 # 10) * P /\ (11 # 10) * P <= hi).
  { unfold within in HW. assert (C : (19 # 100) * P <= W * c20 <= (21 # 100) * P) by (unfold c20; lra).
    pose proof (rounded _ _ _ R (W * c20)) as R1. unfold within in R1. specialize (R1 ltac:(lra)). subst lo hi. set (r1 := rd (W * c20)) in *. clearbody r1.
    pose proof (rounded _ _ _ R (W - r1)) as R2. unfold within in R2. specialize (R2 ltac:(lra)).
    pose proof (rounded _ _ _ R (W + r1)) as R3. unfold within in R3. specialize (R3 ltac:(lra)). lra. }
  clearbody lo hi. destruct Hlim as [Hlo Hhi].
  destruct gaps as [|n gaps].
  { destruct deltas; [|discriminate]. cbn [mfm_loop]. eexists. split; [reflexivity|]. split; reflexivity. }
  destruct deltas as [|delta deltas]; [discriminate|]. cbn [length] in Hlen. injection Hlen as Hlen.
  pose proof (Forall_inv HG) as Hn. pose proof (Forall_inv_tail HG) as HG'. cbn beta in Hn.
  assert (HPn : P * Qnat n == Qnat n * P) by ring. assert (HPn0 : 0 <= Qnat n * P) by (apply Qmult_le_0_compat; [apply Qnat_nonneg|lra]).
  cbn [list_sum fold_right] in HM. fold (list_sum gaps) in HM. rewrite Qnat_add in HM.
  assert (HPg2 : 0 <= P * Qnat (list_sum gaps)) by (apply Qmult_le_0_compat; [lra|apply Qnat_nonneg]).
  assert (HM' : Qnat n * P + P * Qnat (list_sum gaps) + 10 * P <= M) by (rewrite <- HPn; lra).
  assert (J : forall k, (k <= length (n :: gaps))%nat -> within ((7 # 100) * P) (Qsum (firstn k (delta :: deltas)) - P * Qnat (list_sum (firstn k (n :: gaps))))).
  { intros k Hk. apply (proj2 (within_abs _ _)). apply Hj. exact Hk. }
  pose proof (J 1%nat ltac:(cbn [length]; lia)) as J1. cbn [firstn Qsum fold_right list_sum] in J1. rewrite Nat.add_0_r in J1.
  assert (J1' : within ((7 # 100) * P) (delta - Qnat n * P)) by (unfold within in *; rewrite HPn in J1; lra).
  destruct (first_step rd M eps R fuel lo hi W (mkStats (length (n :: gaps)) 0 0 0 0 0) delta n P (gap_cases n Hn) Hf HP He) as (s1 & E1 & Eb & Es & El & HL1); try assumption; try lra.
  cbn [length] in HLe, HA. rewrite Qnat_S in HA, HLe.
  assert (HLe' : 0 <= Qnat (length gaps) * eps) by (apply Qmult_le_0_compat; [apply Qnat_nonneg|exact He]).
  destruct (locked_loop fuel lo hi P Hf HP He ltac:(lra) Hlo Hhi gaps deltas s1 (Qnat n * P) delta eps HL1 HG' Hlen He) as (s2 & E2 & Eb2 & Es2); try assumption; try lra.
  { intros k Hk. pose proof (J (S k) ltac:(cbn [length]; lia)) as J'. cbn [firstn Qsum fold_right list_sum] in J'.
    fold (Qsum (firstn k deltas)) in J'. fold (list_sum (firstn k gaps)) in J'. unfold within in J'. rewrite Qnat_add in J'.
    assert (Eq : delta + Qsum (firstn k deltas) - P * (Qnat n + Qnat (list_sum (firstn k gaps))) == delta + Qsum (firstn k deltas) - (Qnat n * P + P * Qnat (list_sum (firstn k gaps)))) by ring.
    unfold within in *. rewrite Eq in J'. exact J'. }
  cbn [mfm_loop]. rewrite E1, E2. exists s2. split; [reflexivity|]. split.
  - rewrite Eb2, Eb. unfold cells_of. cbn [flat_map]. rewrite emit_cells by lia. reflexivity.
  - rewrite Es2, Es. reflexivity.
Qed.
End Rounding.
