(* Hist_props.v - C68: the clock chosen for decoding flux; C69: standard tracks decode exactly. *)
From Verif Require Import Base Base_lemmas Chs_model BitRing_model Mfm_model Types_model System34_model MetaSector_model BitStream_model DiskImage_model DiskImage_spec Pce_spec Flux_model Flux_spec Pll_spec Pll_model Pll_props Hist_model Hist_spec Hist_proofs Hist2_proofs Hist3_proofs Layout_spec Scp_model Scp_spec Scp_props Scp_proofs DiskImage2_proofs Hxc_proofs Layout_proofs.
From Coq Require Import QArith Qabs Qround Lia Lqa.
Import ListNotations.
Local Close Scope Q_scope.
Local Open Scope nat_scope.

(* ---- C68 ---- *)
(* Exact arithmetic is one way to round. *)
Lemma exact_rounds u : (0 <= u)%Q -> rounds_rel Qred u.
Proof. intros H x. rewrite Qred_correct. assert (E : (x - x == 0)%Q) by ring. rewrite E. apply Qmult_le_0_compat; [exact H|apply Qabs_nonneg]. Qed.

(* The base time of a sample is the time of at least 0.5% (rounded, and at least one) of those of its transitions that are shorter than 16.384 us. *)
Lemma to_ns_real rd u d v : rounds_rel rd u -> (0 <= u <= 1 # 9007199254740992)%Q -> (0 <= d)%Q -> to_ns rd d = v -> (v < 16384)%N ->
  (inject_Z (Z.of_N v) - (1 # 1000) <= d * 1000000000 <= inject_Z (Z.of_N v) + (1001 # 1000))%Q.
Proof.
  intros R Hu H0 E Hv. unfold to_ns in E. pose proof (Hu' u Hu) as U. assert (Hx : (0 <= d * 1000000000)%Q) by lra. destruct (rd_pos rd u R U _ Hx) as [A B]. set (x := (d * 1000000000)%Q) in *. set (r := rd x) in *.
  assert (Hr : (0 <= r)%Q) by lra. assert (F0 : (0 <= Qfloor r)%Z) by (rewrite <- (Qfloor_Z 0); apply Qfloor_resp_le; exact Hr). assert (Ez : Z.of_N v = Qfloor r) by lia. rewrite Ez.
  pose proof (Qfloor_le r) as F1. pose proof (Qlt_floor r) as F2. rewrite inject_Z_plus in F2. change (inject_Z 1) with 1%Q in F2.
  assert (F3 : (inject_Z (Qfloor r) <= 16383)%Q) by (change 16383%Q with (inject_Z 16383); rewrite <- Zle_Qle; lia). set (f := inject_Z (Qfloor r)) in *. clearbody f r x. lra.
Qed.
Lemma median_close i v : 1 <= i -> i < 96 -> (bucket_lo i <= v < bucket_lo (S i))%N -> (16 * v <= 17 * median i + 16 /\ 15 * median i <= 16 * v + 16 /\ 1 <= median i <= 16383 /\ v < 16384)%N.
Proof.
  intros H1 Hi Hv.
  assert (T : forallb (fun i => let lo := bucket_lo i in let hi := bucket_lo (S i) in (16 * (hi - 1) <=? 17 * median i + 16) && (15 * median i <=? 16 * lo + 16) && (1 <=? median i) && (median i <=? 16383) && (hi <=? 16384))%N (seq 1 95) = true) by (vm_compute; reflexivity).
  rewrite forallb_forall in T. specialize (T i ltac:(apply in_seq; lia)). cbv beta zeta in T. do 4 (apply andb_prop in T; destruct T as [T ?]). repeat match goal with X : (_ <=? _)%N = true |- _ => apply N.leb_le in X end. lia.
Qed.
Theorem C68_base_time : forall rd u deltas fraction t, rounds_rel rd u -> (0 <= u <= 1 # 9007199254740992)%Q -> Forall (fun d => 0 <= d)%Q deltas ->
  base_transition_time rd (hist_new rd deltas fraction) = Some t ->
  exists n, n = round_nat (rd (Qnat (length deltas) * fraction)%Q) /\
    let taken := firstn n deltas in
    let close := length (filter (close_to t (1 # 16)) taken) in
    1 <= close /\ 4 * length (filter (fun d => Qle_bool d (16383 # 1000000000)) taken) <= 1000 * close + 501.
Proof.
  intros rd u deltas fraction t R Hu Hpos E. exists (round_nat (rd (Qnat (length deltas) * fraction)%Q)). split; [reflexivity|]. cbv zeta. change (firstn (round_nat (rd (Qnat (length deltas) * fraction)%Q)) deltas) with (sample rd deltas fraction).
  assert (Hps : Forall (fun d => 0 <= d)%Q (sample rd deltas fraction)) by (rewrite Forall_forall in *; intros d Hd; apply Hpos; exact (sample_in _ _ _ _ Hd)).
  destruct (base_time_first _ _ _ E) as (i & Hp & Hi & Hl & Et). rewrite hist_length in Hl. pose proof (total_counts rd deltas fraction) as Tc. set (sm := sample rd deltas fraction) in *.
  assert (Lc : length (filter (in_bucket rd i) sm) <= length (filter (close_to t (1 # 16)) sm)).
  { clear - R Hu Hps Et Hi Hl. induction Hps as [|d l Hd _ IH]; [apply le_n|]. cbn [filter]. destruct (in_bucket rd i d) eqn:B; [|destruct (close_to _ _ _); cbn [length]; lia].
    replace (close_to t (1 # 16) d) with true; [cbn [length]; lia|]. symmetry. unfold in_bucket in B. destruct (bucket_of (to_ns rd d)) as [j|] eqn:Eb; [|discriminate]. apply Nat.eqb_eq in B. subst j.
    destruct (bucket_range _ _ Eb) as [_ Hv]. destruct (median_close i _ Hi ltac:(lia) Hv) as (M1 & M2 & M3 & V). destruct (to_ns_real rd u d _ R Hu Hd eq_refl V) as [D1 D2]. clear Hv V Eb.
    set (v := to_ns rd d) in *. set (m := median i) in *. clearbody v m. assert (Q1 : (16 * inject_Z (Z.of_N v) <= 17 * inject_Z (Z.of_N m) + 16)%Q) by (change 16%Q with (inject_Z 16); change 17%Q with (inject_Z 17); rewrite <- !inject_Z_mult, <- inject_Z_plus, <- Zle_Qle; lia).
    assert (Q2 : (15 * inject_Z (Z.of_N m) <= 16 * inject_Z (Z.of_N v) + 16)%Q) by (change 16%Q with (inject_Z 16); change 15%Q with (inject_Z 15); rewrite <- !inject_Z_mult, <- inject_Z_plus, <- Zle_Qle; lia).
    assert (Q3 : (1 <= inject_Z (Z.of_N m) <= 16383)%Q) by (change 1%Q with (inject_Z 1); change 16383%Q with (inject_Z 16383); rewrite <- !Zle_Qle; lia).
    assert (Hx : (0 <= inject_Z (Z.of_N m) / 1000000000)%Q) by (apply Qle_shift_div_l; [reflexivity|]; lra). destruct (rd_pos rd u R (Hu' u Hu) _ Hx) as [T1 T2]. rewrite <- Et in T1, T2.
    assert (Ex : (inject_Z (Z.of_N m) / 1000000000 == (1 # 1000000000) * inject_Z (Z.of_N m))%Q) by field. rewrite Ex in T1, T2. set (y := inject_Z (Z.of_N m)) in *. set (x := inject_Z (Z.of_N v)) in *. clearbody x y. clear Ex Hx Et M1 M2 M3.
    unfold close_to. apply Qle_bool_iff. apply Qabs_Qle_condition. lra. }
  unfold peak in Hp. apply andb_prop in Hp. destruct Hp as [Hp H3]. apply andb_prop in Hp. destruct Hp as [_ H2]. apply Nat.ltb_lt in H2. apply Nat.leb_le in H3. rewrite (hist_nth rd deltas fraction i) in H2, H3 by lia. fold sm in H2, H3.
  set (c := length (filter (in_bucket rd i) sm)) in *. split; [lia|].
  (* the transitions below 16.384 us are counted *)
  assert (Ls : length (filter (fun d => Qle_bool d (16383 # 1000000000)) sm) <= list_sum (hist_new rd deltas fraction)).
  { rewrite Tc. clear - R Hu Hps. induction Hps as [|d l Hd _ IH]; [apply le_n|]. cbn [filter flat_map]. rewrite app_length. destruct (Qle_bool d (16383 # 1000000000)) eqn:B; [|lia]. apply Qle_bool_iff in B. cbn [length].
    assert (Hx : (0 <= d * 1000000000)%Q) by lra. destruct (rd_pos rd u R (Hu' u Hu) _ Hx) as [T1 T2].
    assert (V : (to_ns rd d < 16384)%N). { unfold to_ns. pose proof (Qfloor_le (rd (d * 1000000000)%Q)) as F. assert (G : (Qfloor (rd (d * 1000000000)%Q) < 16384)%Z) by (rewrite Zlt_Qlt; change (inject_Z 16384) with 16384%Q; lra). lia. }
    assert (Eb : exists j, bucket_of (to_ns rd d) = Some j) by (unfold bucket_of; replace (to_ns rd d <? 16384)%N with true by (symmetry; apply N.ltb_lt; exact V); destruct (to_ns rd d <? 16)%N; eexists; reflexivity).
    destruct Eb as [j Eb]. rewrite Eb. cbn [Hist_proofs.opt_list length]. clear - IH. lia. }
  set (tot := list_sum (hist_new rd deltas fraction)) in *. unfold thr_of in H3. fold tot in H3. clear - R Hu Lc Ls H3.
  assert (Hq : (4 * tot <= 1000 * c + 501)%nat); [|lia].
  unfold round_nat in H3. assert (Ht : (0 <= inject_Z (Z.of_nat tot))%Q) by (change 0%Q with (inject_Z 0); rewrite <- Zle_Qle; lia). set (tq := inject_Z (Z.of_nat tot)) in *.
  assert (Hy : ((49 # 10000) * tq <= tq * c005)%Q) by (assert ((49 # 10000) <= c005)%Q by (apply Qle_bool_iff; reflexivity); rewrite (Qmult_comm tq); apply Qmult_le_compat_r; assumption).
  destruct (rd_pos rd u R (Hu' u Hu) (tq * c005)%Q ltac:(lra)) as [A _]. set (y := (tq * c005)%Q) in *. set (r := rd y) in *. clearbody y r.
  pose proof (Qlt_floor (r + (1 # 2))) as F. rewrite inject_Z_plus in F. change (inject_Z 1) with 1%Q in F.
  assert (G : (inject_Z (Qfloor (r + (1 # 2))) <= inject_Z (Z.of_nat c))%Q) by (rewrite <- Zle_Qle; lia). set (fl := inject_Z (Qfloor (r + (1 # 2)))) in *. clearbody fl.
  assert (K : (4 * tq <= 1000 * inject_Z (Z.of_nat c) + 501)%Q) by lra. unfold tq in K. change 4%Q with (inject_Z 4) in K. change 1000%Q with (inject_Z 1000) in K. change 501%Q with (inject_Z 501) in K.
  rewrite <- !inject_Z_mult, <- inject_Z_plus, <- Zle_Qle in K. lia.
Qed.

(* ---- the chosen clock ---- *)
Lemma Qlt_bool_iff a b : Qlt_bool a b = true <-> (a < b)%Q.
Proof. unfold Qlt_bool. rewrite negb_true_iff. split; [intros H; apply Qnot_le_lt; intros X; apply Qle_bool_iff in X; congruence|intros H; apply not_true_iff_false; intros X; apply Qle_bool_iff in X; lra]. Qed.
(* Refinement keeps the clock, or moves it to half the base time of the first 2% of the transitions if that is less than 25.01% away. *)
Theorem C68_refined : forall rd u base deltas, rounds_rel rd u -> (0 <= u <= 1 # 9007199254740992)%Q -> (0 < base)%Q ->
  let c := refine_clock rd base deltas in
  c = base \/ ((Qabs (c - base) <= (2501 # 10000) * base)%Q /\ exists t, base_transition_time rd (hist_new rd deltas c02) = Some t /\ c = rd (t / 2)%Q).
Proof.
  intros rd u base deltas R Hu Hb c. subst c. unfold refine_clock. destruct (base_transition_time _ _) as [t|] eqn:E; [|left; reflexivity]. cbv zeta.
  destruct (Qlt_bool (Qabs (rd (rd (rd (t / 2) - base) / base)))%Q (1 # 4)) eqn:B; [|left; reflexivity]. right. split; [|exists t; split; reflexivity]. apply Qlt_bool_iff in B.
  set (p := rd (t / 2)%Q) in *. clearbody p. pose proof (Hu' u Hu) as U.
  assert (A1 : forall x, (Qabs x <= (10001 # 10000) * Qabs (rd x))%Q).
  { intros x. pose proof (R x) as H. pose proof (Qabs_nonneg x) as N. assert (B1 : (u * Qabs x <= (1 # 1000000000000) * Qabs x)%Q) by (apply Qmult_le_compat_r; [apply U|exact N]).
    pose proof (Qabs_triangle (x - rd x) (rd x)) as T. assert (Ex : (x - rd x + rd x == x)%Q) by ring. rewrite Ex in T. rewrite (Qabs_Qminus x (rd x)) in T. set (a := Qabs x) in *. set (b := Qabs (rd x)) in *. set (z := (u * a)%Q) in *. clearbody a b z. lra. }
  pose proof (A1 (p - base)%Q) as D1. set (y := rd (p - base)%Q) in *. pose proof (A1 (y / base)%Q) as D2. set (z := Qabs (rd (y / base)%Q)) in *.
  assert (D3 : (Qabs y == Qabs (y / base) * base)%Q). { rewrite <- (Qabs_pos base) at 2 by lra. rewrite <- Qabs_Qmult. assert (E3 : (y / base * base == y)%Q) by (field; lra). rewrite E3. reflexivity. }
  set (w := Qabs (y / base)%Q) in *. assert (D4 : (w * base <= (10001 # 40000) * base)%Q) by (apply Qmult_le_compat_r; lra). set (v := Qabs y) in *. set (wb := (w * base)%Q) in *. set (q := Qabs (p - base)%Q) in *. clearbody wb v q w z y. lra.
Qed.
Lemma median_range i : 1 <= i -> i < 96 -> (1 <= median i <= 16383)%N.
Proof.
  intros H1 Hi. assert (T : forallb (fun i => (1 <=? median i) && (median i <=? 16383))%N (seq 1 95) = true) by (vm_compute; reflexivity).
  rewrite forallb_forall in T. specialize (T i ltac:(apply in_seq; lia)). apply andb_prop in T. destruct T as [A B]. apply N.leb_le in A, B. split; assumption.
Qed.
Lemma half_base rd u deltas f t : rounds_rel rd u -> (0 <= u <= 1 # 9007199254740992)%Q -> base_transition_time rd (hist_new rd deltas f) = Some t -> (49 # 100000000000 <= rd (t / 2) <= 1 # 100000)%Q.
Proof.
  intros R Hu E. destruct (base_time_first _ _ _ E) as (i & _ & H1 & H2 & ->). rewrite hist_length in H2. pose proof (median_range i H1 ltac:(lia)) as M. pose proof (med_time rd u R (Hu' u Hu) (median i) ltac:(lia)) as T. cbv zeta in T.
  assert (Q3 : (1 <= inject_Z (Z.of_N (median i)) <= 16383)%Q) by (change 1%Q with (inject_Z 1); change 16383%Q with (inject_Z 16383); rewrite <- !Zle_Qle; lia).
  assert (Ex : (inject_Z (Z.of_N (median i)) / 1000000000 == (1 # 1000000000) * inject_Z (Z.of_N (median i)))%Q) by field. set (m := (inject_Z (Z.of_N (median i)) / 1000000000)%Q) in *. set (x := inject_Z (Z.of_N (median i))) in *. set (p := rd (rd m / 2)%Q) in *. clearbody m x p. lra.
Qed.
Lemma adjusted rd u : rounds_rel rd u -> (0 <= u <= 1 # 9007199254740992)%Q -> (1 # 1000000 <= rd (c2us * c56) <= 2 # 1000000)%Q.
Proof.
  intros R Hu. destruct (rd_pos rd u R (Hu' u Hu) (c2us * c56)%Q ltac:(apply Qle_bool_iff; reflexivity)) as [A B]. set (r := rd (c2us * c56)%Q) in *. clearbody r. unfold c2us, c56 in A, B. lra.
Qed.
(* Without a clock hint, whatever the transitions and the index time are, the clock lies between 0.49 ns and 10 us and the PLL takes it. *)
Theorem C68_clock_bounds : forall rd u rpm_hint deltas index_time, rounds_rel rd u -> (0 <= u <= 1 # 9007199254740992)%Q ->
  (49 # 100000000000 <= choose_clock rd None rpm_hint deltas index_time <= 1 # 100000)%Q.
Proof.
  intros rd u rpm deltas index R Hu. unfold choose_clock. assert (B : (49 # 100000000000 <= base_clock rd None rpm deltas index <= 1 # 100000)%Q).
  { unfold base_clock, clock_by_count. destruct (_ && _)%bool.
    - destruct (_ && _)%bool; [pose proof (adjusted rd u R Hu); lra|split; apply Qle_bool_iff; reflexivity].
    - destruct (50000 <=? _)%N.
      + replace (Qle_bool c15us c1us) with false by reflexivity. rewrite andb_false_r. split; apply Qle_bool_iff; reflexivity.
      + destruct (base_transition_time _ _) as [t|] eqn:E; [exact (half_base _ _ _ _ _ R Hu E)|split; apply Qle_bool_iff; reflexivity]. }
  unfold refine_clock. destruct (base_transition_time _ _) as [t|] eqn:E; [|exact B]. cbv zeta. destruct (Qlt_bool _ _); [exact (half_base _ _ _ _ _ R Hu E)|exact B].
Qed.
Theorem C68_no_panic : forall rd u fuel rpm_hint deltas index_time, rounds_rel rd u -> (0 <= u <= 1 # 9007199254740992)%Q ->
  match decode_revolution rd fuel None rpm_hint deltas index_time with Some Panic => False | Some (Err _) => False | _ => True end.
Proof.
  intros rd u fuel rpm deltas index R Hu. pose proof (C68_clock_bounds rd u rpm deltas index R Hu) as B. unfold decode_revolution. set (c := choose_clock _ _ _ _ _) in *. clearbody c.
  destruct (pll_period_ok rd u R (Hu' u Hu) c ltac:(lra) ltac:(lra)) as (p & -> & _). destruct (decode_direct _ _ _ _); exact I.
Qed.
(* A hint that is not a frequency above 1 Hz stops the program. *)
Theorem C68_hint_refuted : ~ (forall fuel hint deltas index_time, (0 <= hint)%Q -> decode_revolution Qred fuel (Some hint) None deltas index_time <> Some Panic).
Proof. intros H. apply (H 4 1%Q [] (1 # 5)%Q); [discriminate|]. vm_compute. reflexivity. Qed.
(* The refinement can make a correct clock worse: it takes the middle of a histogram bucket, up to 1/8 wide.  A clean track with 5/3 us cells
   (double density at 360 RPM) has the exact clock before the refinement, and one more than 3% too slow after it. *)
Definition dd360 : list nat := flat_map (fun _ => [2; 3]) (seq 0 100).
Definition dd360_deltas : list Q := map (fun g => (inject_Z (Z.of_nat g) * (5 # 3000000))%Q) dd360.
Theorem C68_refine_refuted : ~ (forall cell gaps deltas index_time, near cell 0 gaps deltas -> mfm_gaps gaps ->
  (Qabs (base_clock Qred (Some c2us) None deltas index_time - cell) <= (1 # 10000) * cell)%Q ->
  (Qabs (choose_clock Qred (Some c2us) None deltas index_time - cell) <= (3 # 100) * cell)%Q).
Proof.
  intros H. specialize (H (5 # 3000000)%Q dd360 dd360_deltas (1 # 6)%Q). assert (G : (Qabs (choose_clock Qred (Some c2us) None dd360_deltas (1 # 6) - (5 # 3000000)) <= (3 # 100) * (5 # 3000000))%Q).
  { apply H.
    - split; [unfold dd360_deltas; apply map_length|]. intros k _. unfold dd360_deltas. rewrite firstn_map. generalize (firstn k dd360). clear. intros l. apply Qabs_Qle_condition.
      assert (E : (Qsum (map (fun g => inject_Z (Z.of_nat g) * (5 # 3000000)) l) == (5 # 3000000) * Qnat (list_sum l))%Q); [|rewrite E; lra].
      induction l as [|g l IH]; [reflexivity|]. cbn [map Qsum fold_right list_sum]. fold (Qsum (map (fun g => inject_Z (Z.of_nat g) * (5 # 3000000))%Q l)). fold (list_sum l). rewrite IH. unfold Qnat. rewrite Nat2Z.inj_add, inject_Z_plus. ring.
    - unfold mfm_gaps, dd360. apply Forall_forall. intros g Hg. apply in_flat_map in Hg. destruct Hg as (_ & _ & [<- | [<- | []]]); lia.
    - apply Qle_bool_iff. vm_compute. reflexivity. }
  apply Qle_bool_iff in G. vm_compute in G. discriminate.
Qed.

(* ---- C69 ---- *)
Section standard.
Variable rd : Q -> Q.
Variable u : Q.
Hypothesis R : rounds_rel rd u.
Hypothesis Hu : (0 <= u <= 1 # 9007199254740992)%Q.
Lemma dd_decodes fuel hint rpm index cell gaps deltas : 4 <= fuel -> cell_of (us 2) cell -> recording cell gaps deltas ->
  ((99 # 100) * us 2 <= base_clock rd hint rpm deltas index <= (10001 # 10000) * us 2)%Q -> decode_revolution rd fuel hint rpm deltas index = Some (Ok (cells_of gaps, true)).
Proof.
  intros Hf HC Rc B. apply (decode_with rd u R Hu fuel hint rpm index (us 2) cell gaps deltas Hf); [apply Qle_bool_iff; reflexivity|apply Qle_bool_iff; reflexivity|exact HC|exact Rc|].
  unfold choose_clock. apply (refine_dd rd u R Hu cell gaps); assumption.
Qed.
Lemma hd_decodes fuel hint rpm index cell gaps deltas : 4 <= fuel -> cell_of (us 1) cell -> recording cell gaps deltas ->
  ((99 # 100) * us 1 <= base_clock rd hint rpm deltas index <= (10001 # 10000) * us 1)%Q -> decode_revolution rd fuel hint rpm deltas index = Some (Ok (cells_of gaps, true)).
Proof.
  intros Hf HC Rc B. apply (decode_with rd u R Hu fuel hint rpm index (us 1) cell gaps deltas Hf); [apply Qle_bool_iff; reflexivity|apply Qle_bool_iff; reflexivity|exact HC|exact Rc|].
  unfold choose_clock. apply (refine_hd rd u R Hu cell gaps); assumption.
Qed.
Lemma rec_length cell gaps deltas : recording cell gaps deltas -> length deltas = length gaps.
Proof. intros Rc. exact (proj1 (rec_near _ _ _ Rc)). Qed.
Lemma c2us_ok : ((99 # 100) * us 2 <= c2us <= (10001 # 10000) * us 2)%Q.
Proof. split; apply Qle_bool_iff; reflexivity. Qed.
Lemma c1us_ok : ((99 # 100) * us 1 <= c1us <= (10001 # 10000) * us 1)%Q.
Proof. split; apply Qle_bool_iff; reflexivity. Qed.
Lemma hd_base hint rpm deltas index : (match hint with Some c => Some c | None => clock_by_count (length deltas) end) = Some c1us -> base_clock rd hint rpm deltas index = c1us.
Proof. intros E. unfold base_clock. rewrite E. replace (Qle_bool c15us c1us) with false by reflexivity. rewrite andb_false_r. reflexivity. Qed.
Lemma dd_base hint rpm deltas index : about_300 index -> (match hint with Some c => Some c | None => clock_by_count (length deltas) end) = Some c2us -> base_clock rd hint rpm deltas index = c2us.
Proof. intros A E. unfold base_clock. rewrite E, (rpm_300 rd u R Hu rpm index A). reflexivity. Qed.
Lemma rec_small X cell gaps deltas : (us 1 <= X)%Q -> cell_of X cell -> recording cell gaps deltas -> (N.of_nat (length gaps) <= 1000000)%N.
Proof.
  intros HX [HC _] Rc. unfold us in HX. pose proof (rec_time _ _ _ Rc) as T. assert (Gl : 2 * length gaps <= list_sum gaps) by (generalize (rec_mfm _ _ _ Rc); clear; induction 1 as [|g gaps Hg _ IH]; [apply le_n|]; cbn [length list_sum fold_right]; fold (list_sum gaps); lia).
  assert (Q0 : (0 <= Qnat (list_sum gaps))%Q) by (unfold Qnat; change 0%Q with (inject_Z 0); rewrite <- Zle_Qle; lia).
  assert (T2 : ((99 # 100000000) * (Qnat (list_sum gaps) + 10) <= 1 # 2)%Q) by (eapply Qle_trans; [|exact T]; apply Qmult_le_compat_r; lra).
  assert (K : (Qnat (list_sum gaps) <= inject_Z 1000000)%Q) by (change (inject_Z 1000000) with 1000000%Q; lra). unfold Qnat in K. rewrite <- Zle_Qle in K. lia.
Qed.
End standard.

(* A double density track, read without hints at about 300 RPM: its cells, exactly. *)
Theorem C69_double_density : forall rd u fuel rpm_hint index_time cell gaps deltas, rounds_rel rd u -> (0 <= u <= 1 # 9007199254740992)%Q -> 4 <= fuel ->
  recording cell gaps deltas -> cell_of (us 2) cell -> about_300 index_time -> (20000 <= N.of_nat (length gaps) < 41666)%N ->
  decode_revolution rd fuel None rpm_hint deltas index_time = Some (Ok (cells_of gaps, true)).
Proof.
  intros rd u fuel rpm index cell gaps deltas R Hu Hf Rc HC A [L1 L2]. apply (dd_decodes rd u R Hu fuel None rpm index cell); try assumption. rewrite (dd_base rd u R Hu); [exact c2us_ok|exact A|].
  unfold clock_by_count. rewrite (rec_length _ _ _ Rc). apply N.leb_le in L1. apply N.ltb_lt in L2. rewrite L1, L2. reflexivity.
Qed.
(* A high density track: at any speed. *)
Theorem C69_high_density : forall rd u fuel rpm_hint index_time cell gaps deltas, rounds_rel rd u -> (0 <= u <= 1 # 9007199254740992)%Q -> 4 <= fuel ->
  recording cell gaps deltas -> cell_of (us 1) cell -> (50000 <= N.of_nat (length gaps))%N ->
  decode_revolution rd fuel None rpm_hint deltas index_time = Some (Ok (cells_of gaps, true)).
Proof.
  intros rd u fuel rpm index cell gaps deltas R Hu Hf Rc HC L. apply (hd_decodes rd u R Hu fuel None rpm index cell); try assumption. rewrite hd_base; [exact c1us_ok|].
  unfold clock_by_count. rewrite (rec_length _ _ _ Rc). replace (N.of_nat (length gaps) <? 41666)%N with false by (symmetry; apply N.ltb_ge; lia). rewrite andb_false_r. apply N.leb_le in L. rewrite L. reflexivity.
Qed.
(* Any other number of transitions, when at least 2% of them are two cells apart: at any speed. *)
Theorem C69_other_counts : forall rd u fuel rpm_hint index_time nominal cell gaps deltas, rounds_rel rd u -> (0 <= u <= 1 # 9007199254740992)%Q -> 4 <= fuel ->
  recording cell gaps deltas -> nominal = us 1 \/ nominal = us 2 -> cell_of nominal cell ->
  (N.of_nat (length gaps) < 20000 \/ 41666 <= N.of_nat (length gaps) < 50000)%N -> 2 * length gaps <= 100 * count_occ Nat.eq_dec gaps 2 ->
  decode_revolution rd fuel None rpm_hint deltas index_time = Some (Ok (cells_of gaps, true)).
Proof.
  intros rd u fuel rpm index nominal cell gaps deltas R Hu Hf Rc Hn HC L H2.
  assert (B0 : base_clock rd None rpm deltas index = match base_transition_time rd (hist_new rd deltas 1) with Some t => rd (t / 2)%Q | None => c2us end).
  { unfold base_clock, clock_by_count. rewrite (rec_length _ _ _ Rc). destruct (N.leb_spec 20000 (N.of_nat (length gaps))) as [A|A]; destruct (N.ltb_spec (N.of_nat (length gaps)) 41666) as [B|B]; destruct (N.leb_spec 50000 (N.of_nat (length gaps))) as [C|C]; cbn [andb]; try reflexivity; exfalso; lia. }
  assert (Hs : (N.of_nat (length gaps) <= 1000000)%N) by (apply (rec_small nominal cell gaps deltas); [destruct Hn as [-> | ->]; apply Qle_bool_iff; reflexivity|exact HC|exact Rc]).
  pose proof (rec_medium _ _ _ Rc) as H6. assert (H3 : 2 * length gaps <= 100 * count_occ Nat.eq_dec gaps 3) by lia.
  destruct Hn as [-> | ->].
  - apply (hd_decodes rd u R Hu fuel None rpm index cell); try assumption. rewrite B0. rewrite (full_base rd u R Hu hd_bucket gaps deltas (rec_mfm _ _ _ Rc) (rec_length _ _ _ Rc) Hs (fun k d g => hd_buckets rd u R Hu cell gaps deltas k d g HC Rc)); try assumption; [|cbn [hd_bucket]; lia|exact (rec_some _ _ _ Rc)].
    pose proof (med_time rd u R (Hu' u Hu) (median (hd_bucket 2)) ltac:(cbv; discriminate)) as T. cbv zeta in T. set (p := rd (rd (inject_Z (Z.of_N (median (hd_bucket 2))) / 1000000000) / 2)%Q) in *. clearbody p. change (Z.of_N (median (hd_bucket 2))) with 1983%Z in T. unfold us, Qdiv in *. change (inject_Z 1983) with 1983%Q in T. change (/ 1000000000)%Q with (1 # 1000000000)%Q in T. lra.
  - apply (dd_decodes rd u R Hu fuel None rpm index cell); try assumption. rewrite B0. rewrite (full_base rd u R Hu dd_bucket gaps deltas (rec_mfm _ _ _ Rc) (rec_length _ _ _ Rc) Hs (fun k d g => dd_buckets rd u R Hu cell gaps deltas k d g HC Rc)); try assumption; [|cbn [dd_bucket]; lia|exact (rec_some _ _ _ Rc)].
    pose proof (med_time rd u R (Hu' u Hu) (median (dd_bucket 2)) ltac:(cbv; discriminate)) as T. cbv zeta in T. set (p := rd (rd (inject_Z (Z.of_N (median (dd_bucket 2))) / 1000000000) / 2)%Q) in *. clearbody p. change (Z.of_N (median (dd_bucket 2))) with 3967%Z in T. unfold us, Qdiv in *. change (inject_Z 3967) with 3967%Q in T. change (/ 1000000000)%Q with (1 # 1000000000)%Q in T. lra.
Qed.
(* With the right hint: any number of transitions. *)
Theorem C69_hint : forall rd u fuel rpm_hint index_time cell gaps deltas, rounds_rel rd u -> (0 <= u <= 1 # 9007199254740992)%Q -> 4 <= fuel -> recording cell gaps deltas ->
  (cell_of (us 1) cell -> decode_revolution rd fuel (Some c1us) rpm_hint deltas index_time = Some (Ok (cells_of gaps, true))) /\
  (cell_of (us 2) cell -> about_300 index_time -> decode_revolution rd fuel (Some c2us) rpm_hint deltas index_time = Some (Ok (cells_of gaps, true))).
Proof.
  intros rd u fuel rpm index cell gaps deltas R Hu Hf Rc. split.
  - intros HC. apply (hd_decodes rd u R Hu fuel _ rpm index cell); try assumption. rewrite hd_base; [exact c1us_ok|reflexivity].
  - intros HC A. apply (dd_decodes rd u R Hu fuel _ rpm index cell); try assumption. rewrite (dd_base rd u R Hu); [exact c2us_ok|exact A|reflexivity].
Qed.
(* The track made of a standard revolution has exactly the recorded cells. *)
Theorem C69_track : forall rd u fuel rnd fm rpm_hint ch sec gaps rev t, rounds_rel rd u -> (0 <= u <= 1 # 9007199254740992)%Q -> 4 <= fuel ->
  standard_revolution sec gaps rev -> revolution_track rd fuel rnd fm None rpm_hint ch (map sec (fst rev)) (sec (snd rev)) = Ok t -> bt_ch t = ch /\ cells t = cells_of gaps.
Proof.
  intros rd u fuel rnd fm rpm ch sec gaps rev t R Hu Hf (cell & Rc & H) E. unfold revolution_track in E.
  assert (Ed : decode_revolution rd fuel None rpm (map sec (fst rev)) (sec (snd rev)) = Some (Ok (cells_of gaps, true))).
  { destruct H as [(HC & A & L)|(HC & L)]; [exact (C69_double_density rd u fuel rpm _ cell gaps _ R Hu Hf Rc HC A L)|exact (C69_high_density rd u fuel rpm _ cell gaps _ R Hu Hf Rc HC L)]. }
  rewrite Ed in E. split; [eapply bt_new_ch; exact E|]. exact (C61_track _ _ _ _ E).
Qed.

(* ---- SCP files of standard tracks ---- *)
Lemma scp_file_unique file n heads revs n' heads' revs' : scp_file file n heads revs -> scp_file file n' heads' revs' -> n = n' /\ heads = heads' /\ revs = revs'.
Proof.
  intros V W. assert (G : forall m h r m' h' r', scp_file file m h r -> scp_file file m' h' r' -> ~ m < m').
  { clear. intros m h r m' h' r' V W L. destruct (sf_some _ _ _ _ V) as [M1 _]. assert (L2 : (N.of_nat m < (scp_entry file 0 - 16) / 4)%N) by (pose proof (proj2 (sf_table _ _ _ _ W)); lia).
    pose proof (sf_end _ _ _ _ V L2) as Z. pose proof (sf_rising _ _ _ _ W (m - 1) ltac:(lia)) as X. replace (S (m - 1)) with m in X by lia. lia. }
  split; [pose proof (G _ _ _ _ _ _ V W); pose proof (G _ _ _ _ _ _ W V); lia|]. split.
  - destruct (sf_heads _ _ _ _ V) as [[A ->]|[A ->]]; destruct (sf_heads _ _ _ _ W) as [[B ->]|[B ->]]; try reflexivity; congruence.
  - pose proof (sf_revs _ _ _ _ V) as A. rewrite (sf_revs _ _ _ _ W) in A. lia.
Qed.
Lemma omapM_nth {A B} (f : A -> outcome B) : forall l bs, omapM f l = Ok bs -> length bs = length l /\ forall k b, nth_error bs k = Some b -> exists a, nth_error l k = Some a /\ f a = Ok b.
Proof.
  induction l as [|a l IH]; intros bs E; cbn [omapM] in E; [apply (f_equal (fun x => match x with Ok y => y | _ => bs end)) in E; subst bs; split; [reflexivity|intros [|k] b X; discriminate]|].
  destruct (f a) as [b| |] eqn:Ea; cbn [obind] in E; [|discriminate|discriminate]. destruct (omapM f l) as [r| |]; cbn [obind] in E; [|discriminate|discriminate]. destruct (IH r eq_refl) as [L H].
  apply (f_equal (fun x => match x with Ok y => y | _ => bs end)) in E. subst bs. split; [cbn [length]; rewrite L; reflexivity|]. intros [|k] x X; cbn [nth_error] in X |- *; [injection X as <-; exists a; split; [reflexivity|exact Ea]|exact (H k x X)].
Qed.
Lemma best_in bs : bs <> [] -> best_loop 0 (map Some bs) 0 0%Z < length bs.
Proof.
  intros H. destruct (best_loop_spec (map Some bs) 0 0 0%Z _ eq_refl) as [[E _]|(j & t & E & Hj & _)]; rewrite E.
  - destruct bs; [congruence|cbn; lia].
  - assert (j < length (map Some bs)) by (apply nth_error_Some; congruence). rewrite map_length in *. lia.
Qed.
Lemma no_synthetic {A B} (rs : list (list A * B)) m : (forall a, In a rs -> length (fst a) = m) -> synthesize rs = rs.
Proof.
  intros H. unfold synthesize. assert (E : synthesized rs = []); [|rewrite E; apply app_nil_r]. induction rs as [|a [|b t] IH]; try reflexivity. cbn [synthesized].
  assert (Ea : adjacent_pair a b = []); [|rewrite Ea; apply IH; intros x Hx; apply H; right; exact Hx].
  unfold adjacent_pair. rewrite (H a (or_introl eq_refl)), (H b (or_intror (or_introl eq_refl))). replace (m =? m + 2) with false by (symmetry; apply Nat.eqb_neq; lia). reflexivity.
Qed.
(* When every revolution of every track of an SCP file is a standard one, of as many transitions as the other revolutions of its track, and
   the file loads, then every track shows the cells one of its revolutions recorded. *)
Theorem C69_scp : forall rd u fuel rnd fm sec file n heads revs rs gaps d', rounds_rel rd u -> (0 <= u <= 1 # 9007199254740992)%Q -> 4 <= fuel ->
  scp_file file n heads revs -> 1 <= revs -> (forall i, i < n -> scp_revolutions 65535 file revs i (rs i)) ->
  (forall i r rev, i < n -> nth_error (rs i) r = Some rev -> standard_revolution sec (gaps i r) rev /\ length (gaps i r) = length (gaps i 0)) ->
  scp_load_image (decode_revolutions rd fuel rnd fm None None sec) di_default file = Ok d' ->
  exists s', maps_valid d' /\ shows d' s' /\ forall i, i < n -> exists f b r, nth_error (side s' (N.of_nat (i mod heads))) (i / heads) = Some (TFlux f) /\
    ft_bitstream f = Ok (Some b) /\ r < revs /\ cells b = cells_of (gaps i r).
Proof.
  intros rd u fuel rnd fm sec file n heads revs rs gaps d' R Hu Hf V Hr HR HS E. set (dec := decode_revolutions rd fuel rnd fm None None sec) in *.
  destruct (C64_only dec file d' E) as (n' & heads' & revs' & W & HD). destruct (scp_file_unique _ _ _ _ _ _ _ V W) as (<- & <- & <-).
  set (bs := fun i => match dec (ch_at heads i) (synthesize (rs i)) with Ok b => b | _ => [] end).
  assert (HB : forall i, i < n -> dec (ch_at heads i) (synthesize (rs i)) = Ok (bs i)). { intros i Hi. destruct (HD i (rs i) Hi (HR i Hi)) as [b Eb]. unfold bs. rewrite Eb. reflexivity. }
  destruct (C64_load dec file n heads revs rs bs V HR HB) as (d2 & s' & E2 & MV & Sh & _ & La). assert (d2 = d') by congruence. subst d2. exists s'. split; [exact MV|]. split; [exact Sh|]. intros i Hi.
  destruct La as (_ & _ & La). specialize (La i Hi). assert (Lr : length (rs i) = revs) by exact (proj1 (HR i Hi)).
  assert (Es : synthesize (rs i) = rs i).
  { apply (no_synthetic _ (length (gaps i 0))). intros a Ha. apply In_nth_error in Ha. destruct Ha as [r Er]. destruct (HS i r a Hi Er) as [(cell & Rc & _) Lg]. rewrite <- Lg. rewrite <- (rec_length _ _ _ Rc), map_length. reflexivity. }
  pose proof (HB i Hi) as Eb. rewrite Es in Eb. unfold dec, decode_revolutions in Eb. destruct (omapM_nth _ _ _ Eb) as [Lb0 Hb]. assert (Lb : length (bs i) = revs) by exact (eq_trans Lb0 Lr). clear Lb0.
  assert (Hne : bs i <> []) by (intros X; rewrite X in Lb; cbn in Lb; lia). pose proof (best_in _ Hne) as Hbest. set (k := best_loop 0 (map Some (bs i)) 0 0%Z) in *.
  destruct (nth_error (bs i) k) as [b|] eqn:Ek; [|apply nth_error_None in Ek; lia]. destruct (Hb k b Ek) as (rev & Erev & Et).
  unfold flux_track, analyze_revolutions in La. cbn [ft_revs ft_ch ft_decoded] in La. destruct (length (bs i)) as [|m] eqn:Lm; [lia|]. fold k in La.
  eexists. exists b, k. split; [exact La|]. split.
  - unfold ft_bitstream. cbn [ft_best ft_revs ft_decoded]. replace (k <? S m) with true by (symmetry; apply Nat.ltb_lt; lia). unfold oindex. rewrite nth_error_map, Ek. reflexivity.
  - split; [lia|]. exact (proj2 (C69_track rd u fuel rnd fm None _ sec (gaps i k) rev b R Hu Hf (proj1 (HS i k rev Hi Erev)) Et)).
Qed.

(* ---- examples ---- *)
(* a recording of any length: gaps of 2, 3 and 4 cells of 2 us in turn, exactly timed *)
Fixpoint cycle (n : nat) : list nat := match n with O => [] | S n => 2 :: 3 :: 4 :: cycle n end.
Definition timed (c : Q) (gaps : list nat) : list Q := map (fun g => (c * Qnat g)%Q) gaps.
Lemma timed_near c gaps : near c 0 gaps (timed c gaps).
Proof.
  split; [apply map_length|]. intros k _. unfold timed. rewrite firstn_map. apply Qabs_Qle_condition. assert (E : (Qsum (map (fun g => c * Qnat g) (firstn k gaps)) == c * Qnat (list_sum (firstn k gaps)))%Q); [|rewrite E; lra].
  induction (firstn k gaps) as [|g l IH]; [change (0 == c * 0)%Q; ring|]. cbn [map Qsum fold_right list_sum]. fold (Qsum (map (fun g => c * Qnat g)%Q l)). fold (list_sum l). rewrite IH. unfold Qnat. rewrite Nat2Z.inj_add, inject_Z_plus. ring.
Qed.
Lemma cycle_recording c n : (0 <= c)%Q -> 1 <= n -> (c * (Qnat (9 * n) + 10) <= 1 # 2)%Q -> recording c (cycle n) (timed c (cycle n)).
Proof.
  intros Hc Hn Ht. constructor.
  - clear. unfold mfm_gaps. induction n as [|n IH]; [constructor|]. cbn [cycle]. repeat (constructor; [lia|]). exact IH.
  - destruct n; [lia|discriminate].
  - clear. enough (length (cycle n) = 3 * n /\ count_occ Nat.eq_dec (cycle n) 3 = n) by lia. induction n as [|n [A B]]; [split; reflexivity|]. cbn [cycle length count_occ]. cbn [Nat.eq_dec nat_rec nat_rect]. split; [lia|]. destruct (Nat.eq_dec 2 3); [lia|]. destruct (Nat.eq_dec 3 3); [|lia]. destruct (Nat.eq_dec 4 3); lia.
  - apply (near_weaken c 0); [|apply timed_near]. lra.
  - replace (list_sum (cycle n)) with (9 * n); [exact Ht|]. clear. induction n as [|n IH]; [reflexivity|]. cbn [cycle list_sum fold_right]. fold (list_sum (cycle n)). lia.
Qed.
Lemma cycle_length n : length (cycle n) = 3 * n.
Proof. induction n as [|n IH]; [reflexivity|]. cbn [cycle length]. lia. Qed.
Example C69_ex : exists n, (20000 <= N.of_nat (length (cycle n)) < 41666)%N /\ decode_revolution Qred 4 None None (timed (us 2) (cycle n)) (1 # 5) = Some (Ok (cells_of (cycle n), true)).
Proof.
  exists (N.to_nat 7000). assert (L : (N.of_nat (length (cycle (N.to_nat 7000))) = 21000)%N) by (rewrite cycle_length; lia). split; [lia|].
  apply (C69_double_density Qred 0 4 None (1 # 5)%Q (us 2)); [apply exact_rounds; apply Qle_refl|split; apply Qle_bool_iff; reflexivity|lia| |split; apply Qle_bool_iff; reflexivity|split; apply Qle_bool_iff; reflexivity|lia].
  apply cycle_recording; [apply Qle_bool_iff; reflexivity|lia|]. replace (9 * N.to_nat 7000) with (N.to_nat 63000) by lia. unfold Qnat. rewrite N_nat_Z. apply Qle_bool_iff. reflexivity.
Qed.

Print Assumptions C68_base_time.
Print Assumptions C68_refined.
Print Assumptions C68_clock_bounds.
Print Assumptions C68_no_panic.
Print Assumptions C68_hint_refuted.
Print Assumptions C68_refine_refuted.
Print Assumptions C69_double_density.
Print Assumptions C69_high_density.
Print Assumptions C69_other_counts.
Print Assumptions C69_hint.
Print Assumptions C69_track.
Print Assumptions C69_scp.
