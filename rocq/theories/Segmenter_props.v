(* Segmenter_props.v - property C81: DataSegmenter (src/visualization/data_segmenter.rs). *)
From Coq Require Import List Lia Bool PeanoNat NArith.
From Verif Require Import Base Segmenter_model.
Import ListNotations.
Open Scope N_scope.

Fixpoint sum (l : list N) : N := match l with [] => 0 | x :: t => x + sum t end.

(* after i values, the sum of them is floor (i * dividend / divisor) *)
Definition at_step (a d i : N) : Seg := mkSeg d (a / d) (a mod d) ((i * (a mod d)) mod d) i.
Lemma step_ok a d i : 0 < d -> d <= 2 ^ 63 -> a < 2 ^ 64 -> i < d ->
  seg_next (at_step a d i) = Ok (at_step a d (i + 1), Some ((i + 1) * a / d - i * a / d)).
Proof.
  intros Hd Hm Ha Hi. unfold seg_next, at_step. cbn [sg_divisor sg_count sg_accum sg_step sg_base].
  replace (d <=? i) with false by (symmetry; apply N.leb_gt; exact Hi).
  assert (E63 : 2 ^ 63 = 9223372036854775808) by reflexivity. assert (E64 : 2 ^ 64 = 18446744073709551616) by reflexivity.
  rewrite E63 in Hm. rewrite E64 in Ha.
  pose proof (N.mod_lt a d ltac:(lia)) as R. set (r := a mod d) in *. set (q := a / d).
  assert (Ea : a = d * q + r) by (apply N.div_mod; lia).
  pose proof (N.mod_lt (i * r) d ltac:(lia)) as M. pose proof (N.div_mod (i * r) d ltac:(lia)) as Ei. set (m := (i * r) mod d) in *. set (p := (i * r) / d) in *.
  assert (U1 : uadd i 1 = Ok (i + 1)).
  { unfold uadd, usize_max. rewrite E64. replace (i + 1 <? 18446744073709551616) with true; [reflexivity|]. symmetry. apply N.ltb_lt. clear - Hi Hm. lia. }
  assert (U2 : uadd m r = Ok (m + r)).
  { unfold uadd, usize_max. rewrite E64. replace (m + r <? 18446744073709551616) with true; [reflexivity|]. symmetry. apply N.ltb_lt. clear - M R Hm. lia. }
  rewrite U1, U2. cbn [obind].
  assert (D0 : i * a / d = i * q + p).
  { symmetry. apply N.div_unique with m; [exact M|]. rewrite Ea. rewrite N.mul_add_distr_l, Ei. clear. lia. }
  assert (X : (i + 1) * r = d * p + (m + r)) by (rewrite N.mul_add_distr_r, Ei; clear; lia).
  destruct (N.leb_spec d (m + r)) as [L|L].
  - assert (U3 : uadd q 1 = Ok (q + 1)).
    { unfold uadd, usize_max. rewrite E64. replace (q + 1 <? 18446744073709551616) with true; [reflexivity|]. symmetry. apply N.ltb_lt.
      assert (d <> 1) by (intros ->; clear - L M R; lia). assert (q + q <= d * q) by (apply N.le_trans with (2 * q); [lia|apply N.mul_le_mono_r; clear - Hd H; lia]).
      clear - Ea Ha H0. lia. }
    rewrite U3. cbn [obind].
    assert (D1 : (i + 1) * a / d = (i + 1) * q + p + 1).
    { symmetry. apply N.div_unique with (m + r - d); [clear - M R L; lia|]. rewrite Ea, N.mul_add_distr_l, X. clear - L. lia. }
    assert (M1 : ((i + 1) * r) mod d = m + r - d).
    { symmetry. apply N.mod_unique with (p + 1); [clear - M R L; lia|]. rewrite X. clear - L. lia. }
    rewrite D0, D1, M1. do 3 f_equal. clear. lia.
  - assert (D1 : (i + 1) * a / d = (i + 1) * q + p).
    { symmetry. apply N.div_unique with (m + r); [exact L|]. rewrite Ea, N.mul_add_distr_l, X. clear. lia. }
    assert (M1 : ((i + 1) * r) mod d = m + r).
    { symmetry. apply N.mod_unique with p; [exact L|]. exact X. }
    rewrite D0, D1, M1. do 3 f_equal. clear. lia.
Qed.
Lemma mono a d i : 0 < d -> i * a / d <= (i + 1) * a / d.
Proof. intros H. apply N.div_le_mono; [lia|]. apply N.mul_le_mono_r. lia. Qed.
Lemma collect_from a d : 0 < d -> d <= 2 ^ 63 -> a < 2 ^ 64 -> forall k i, i + N.of_nat k = d ->
  exists l, seg_collect (S k) (at_step a d i) = Ok (l, true) /\ length l = k /\
    (forall j, (j <= k)%nat -> i * a / d + sum (firstn j l) = (i + N.of_nat j) * a / d).
Proof.
  intros Hd Hm Ha. induction k as [|k IH]; intros i E.
  - exists []. split; [|split; [reflexivity|]].
    + cbn [seg_collect]. unfold seg_next, at_step. cbn [sg_divisor sg_count]. replace (d <=? i) with true by (symmetry; apply N.leb_le; lia). reflexivity.
    + intros j Hj. assert (j = 0%nat) by lia. subst j. cbn [firstn sum]. rewrite !N.add_0_r. reflexivity.
  - destruct (IH (i + 1)) as (l & El & Ll & Sl); [lia|].
    exists (((i + 1) * a / d - i * a / d) :: l). split; [|split; [cbn [length]; lia|]].
    + change (seg_collect (S (S k)) (at_step a d i)) with (let! (s, v) := seg_next (at_step a d i) in
        match v with None => Ok ([], true) | Some v => let! (l, e) := seg_collect (S k) s in Ok (v :: l, e) end).
      rewrite step_ok by (try assumption; lia). cbn [obind]. rewrite El. reflexivity.
    + intros j Hj. destruct j as [|j]; [cbn [firstn sum]; rewrite !N.add_0_r; reflexivity|]. cbn [firstn sum].
      pose proof (mono a d i Hd) as Mo. specialize (Sl j ltac:(lia)). replace (i + N.of_nat (S j)) with (i + 1 + N.of_nat j) by lia. rewrite <- Sl.
      clear - Mo. set (x := (i + 1) * a / d) in *. set (y := i * a / d) in *. clearbody x y. lia.
Qed.

(* The segmenter yields exactly `divisor` values, the first j of which add up to floor (j * dividend / divisor): all of them add up to
   `dividend`, no prefix is a whole unit away from the even share, and each value is floor (dividend / divisor) or one more. *)
Theorem C81_segments : forall a d, 0 < d -> d <= 2 ^ 63 -> a < 2 ^ 64 ->
  exists s l, seg_new a d = Ok s /\ seg_collect (S (N.to_nat d)) s = Ok (l, true) /\ length l = N.to_nat d /\ sum l = a /\
    (forall j, (j <= N.to_nat d)%nat -> sum (firstn j l) = N.of_nat j * a / d) /\
    Forall (fun x => x = a / d \/ x = a / d + 1) l.
Proof.
  intros a d Hd Hm Ha. exists (at_step a d 0). destruct (collect_from a d Hd Hm Ha (N.to_nat d) 0 ltac:(lia)) as (l & E & L & Su). exists l.
  assert (Z : 0 * a / d = 0) by (rewrite N.mul_0_l; apply N.div_0_l; lia).
  assert (P : forall j, (j <= N.to_nat d)%nat -> sum (firstn j l) = N.of_nat j * a / d).
  { intros j Hj. rewrite <- (N.add_0_l (N.of_nat j)), <- (Su j Hj), Z. lia. }
  split. { unfold seg_new, at_step. replace (0 <? d) with true by (symmetry; apply N.ltb_lt; exact Hd). rewrite N.mul_0_l, N.mod_0_l by lia. reflexivity. }
  split; [exact E|]. split; [exact L|]. split.
  { specialize (P (N.to_nat d) ltac:(lia)). rewrite <- L, firstn_all, L, N2Nat.id, N.mul_comm, N.div_mul in P by lia. exact P. }
  split; [exact P|].
  apply Forall_forall. intros x I. apply In_nth_error in I. destruct I as [j J].
  assert (Hj : (j < length l)%nat) by (apply nth_error_Some; congruence). rewrite L in Hj.
  assert (SS : sum (firstn (S j) l) = sum (firstn j l) + x).
  { clear - J. revert j J. induction l as [|y l IH]; intros [|j] J; cbn in J; try discriminate.
    - injection J as ->. cbn. lia.
    - cbn [firstn sum]. change (firstn (S j) (y :: l)) with (y :: firstn j l). cbn [sum]. specialize (IH j J). cbn [firstn] in IH |- *. rewrite IH. lia. }
  rewrite (P (S j)), (P j) in SS by lia. set (n := N.of_nat j) in *. replace (N.of_nat (S j)) with (n + 1) in SS by lia.
  pose proof (N.div_mod a d ltac:(lia)) as Da. pose proof (N.mod_lt a d ltac:(lia)) as Ra. set (q := a / d) in *. set (r := a mod d) in *.
  pose proof (N.div_mod (n * r) d ltac:(lia)) as Dn. pose proof (N.mod_lt (n * r) d ltac:(lia)) as Rn. set (p := n * r / d) in *. set (m := (n * r) mod d) in *.
  assert (D0 : n * a / d = n * q + p) by (symmetry; apply N.div_unique with m; [exact Rn|rewrite Da, N.mul_add_distr_l, Dn; clear; lia]).
  assert (X : (n + 1) * r = d * p + (m + r)) by (rewrite N.mul_add_distr_r, Dn; clear; lia).
  destruct (N.le_gt_cases d (m + r)) as [G|G].
  - assert (D1 : (n + 1) * a / d = (n + 1) * q + p + 1).
    { symmetry. apply N.div_unique with (m + r - d); [clear - Rn Ra G; lia|]. rewrite Da, N.mul_add_distr_l, X. clear - G. lia. }
    rewrite D0, D1 in SS. right. clear - SS. lia.
  - assert (D1 : (n + 1) * a / d = (n + 1) * q + p) by (symmetry; apply N.div_unique with (m + r); [exact G|rewrite Da, N.mul_add_distr_l, X; clear; lia]).
    rewrite D0, D1 in SS. left. clear - SS. lia.
Qed.
(* A divisor of 0 is refused by a panic. *)
Theorem C81_zero : forall a, seg_new a 0 = Panic.
Proof. reflexivity. Qed.
(* After its last value the segmenter yields nothing more, whatever it was asked for. *)
Theorem C81_fused : forall s s', seg_next s = Ok (s', None) -> s' = s.
Proof.
  intros s s' H. unfold seg_next in H. destruct (sg_divisor s <=? sg_count s); [injection H as <-; reflexivity|]. exfalso.
  destruct (uadd (sg_count s) 1) as [c| |]; cbn [obind] in H; try discriminate. destruct (uadd (sg_accum s) (sg_step s)) as [a| |]; cbn [obind] in H; try discriminate.
  destruct (sg_divisor s <=? a); [destruct (uadd (sg_base s) 1); cbn [obind] in H; discriminate|discriminate].
Qed.
(* The bound on the divisor is needed: near 2^64 the remainder overflows (with overflow checks). *)
Theorem C81_overflow_refuted : exists a d s, a < 2 ^ 64 /\ d < 2 ^ 64 /\ 0 < d /\ seg_new a d = Ok s /\ seg_collect 2 s = Panic.
Proof.
  exists (2 ^ 64 - 2), (2 ^ 64 - 1). exists (mkSeg (2 ^ 64 - 1) 0 (2 ^ 64 - 2) 0 0). repeat split; reflexivity.
Qed.
Example C81_witness : seg_new 20 6 = Ok (mkSeg 6 3 2 0 0) /\ seg_collect 7 (mkSeg 6 3 2 0 0) = Ok ([3; 3; 4; 3; 3; 4], true).
Proof. split; reflexivity. Qed.

Print Assumptions C81_segments.
Print Assumptions C81_zero.
Print Assumptions C81_fused.
Print Assumptions C81_overflow_refuted.
