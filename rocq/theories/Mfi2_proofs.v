(* Mfi2_proofs.v - normalizing the flux times. *)
From Verif Require Import Base Base_lemmas Pll_spec Pll_model Pll_props Hist_model Hist_spec Hist_proofs Hist2_proofs Hist3_proofs Hist_props Mfi_model Mfi_spec.
From Coq Require Import QArith Qabs Qround Lia Lqa.
Import ListNotations.
Local Open Scope Q_scope.

Lemma in_range_iff lo hi x : in_range lo hi x = true <-> lo <= x /\ x < hi.
Proof. unfold in_range. rewrite andb_true_iff, Qle_bool_iff, Qlt_bool_iff. tauto. Qed.
Section norm.
Variable rd : Q -> Q.
Variable u : Q.
Hypothesis R : rounds_rel rd u.
Hypothesis Hu : 0 <= u <= 1 # 9007199254740992.
(* the speed found from the base time *)
Definition speed (t : Q) : Q := rd (rd (rd (t / 2) * c1e6) * 300).
Lemma speed_of m : (m <= 100000)%N -> let x := inject_Z (Z.of_N m) * (15 # 100) in (999 # 1000) * x <= speed (rd (inject_Z (Z.of_N m) / 1000000000)) <= (1001 # 1000) * x.
Proof.
  intros Hm x. pose proof (med_time rd u R (Hu' u Hu) m Hm) as T. cbv zeta in T. unfold speed. set (p := rd (rd (inject_Z (Z.of_N m) / 1000000000) / 2)) in *.
  assert (Hx : 0 <= inject_Z (Z.of_N m)) by (change 0 with (inject_Z 0); rewrite <- Zle_Qle; lia). assert (Ex : inject_Z (Z.of_N m) / 1000000000 == (1 # 1000000000) * inject_Z (Z.of_N m)) by field. rewrite Ex in T. unfold x. set (y := inject_Z (Z.of_N m)) in *. clearbody p y. clear Ex x.
  unfold c1e6. destruct (rd_pos rd u R (Hu' u Hu) (p * 1000000) ltac:(lra)) as [A B]. set (a := rd (p * 1000000)) in *. clearbody a. destruct (rd_pos rd u R (Hu' u Hu) (a * 300) ltac:(lra)) as [C D]. set (b := rd (a * 300)) in *. clearbody b. lra.
Qed.
Lemma not_adjusted fts : (forall t, base_transition_time rd (hist_new rd fts c02) = Some t -> speed t < 340 \/ 380 <= speed t) -> mfi_normalize rd fts = (fts, None).
Proof.
  intros H. unfold mfi_normalize. destruct (base_transition_time _ _) as [t|]; [|reflexivity]. cbv zeta. fold (speed t). destruct (in_range 340 380 (speed t)) eqn:E; [|reflexivity]. apply in_range_iff in E. destruct (H t eq_refl); lra.
Qed.
Lemma base_of fts (bs : list nat) t : (forall d, In d fts -> exists b, In b bs /\ bucket_of (to_ns rd d) = Some b) -> base_transition_time rd (hist_new rd fts c02) = Some t -> exists b, In b bs /\ t = rd (inject_Z (Z.of_N (median b)) / 1000000000).
Proof.
  intros H E. destruct (base_time_first _ _ _ E) as (i & Hp & H1 & H2 & ->). rewrite hist_length in H2. destruct (peak_inhabited rd fts c02 _ i H2 Hp) as (d & Hd & Hb). destruct (H d (sample_in _ _ _ _ Hd)) as (b & Hbs & Hb2). assert (b = i) by congruence. subst b. exists i. split; [exact Hbs|reflexivity].
Qed.
Lemma keep_dd cell gaps fts : cell_of (us 2) cell -> recording cell gaps fts -> mfi_normalize rd fts = (fts, None).
Proof.
  intros HC Rc. apply not_adjusted. intros t E. destruct (base_of fts [79; 83; 87]%nat t) as (b & Hb & ->).
  - intros d Hd. destruct (in_gap _ _ _ _ Rc Hd) as (k & g & Ed & Eg). exists (dd_bucket g). split; [|exact (dd_buckets rd u R Hu cell gaps fts k d g HC Rc Ed Eg)]. destruct (gap_cases _ _ _ (rec_mfm _ _ _ Rc) Eg) as [-> | [-> | ->]]; cbn; auto.
  - exact E.
  - right. assert (M : (median b <= 100000)%N /\ (3967 <= Z.of_N (median b))%Z) by (destruct Hb as [<- | [<- | [<- | []]]]; split; vm_compute; discriminate). destruct M as [M1 M2]. pose proof (speed_of (median b) M1) as S. cbv zeta in S. rewrite Zle_Qle in M2. change (inject_Z 3967) with 3967 in M2. set (y := inject_Z (Z.of_N (median b))) in *. set (z := speed _) in *. clearbody y z. lra.
Qed.
Lemma keep_hd cell gaps fts : cell_of (us 1) cell -> recording cell gaps fts -> mfi_normalize rd fts = (fts, None).
Proof.
  intros HC Rc. apply not_adjusted. intros t E. destruct (base_of fts [71; 75; 79]%nat t) as (b & Hb & ->).
  - intros d Hd. destruct (in_gap _ _ _ _ Rc Hd) as (k & g & Ed & Eg). exists (hd_bucket g). split; [|exact (hd_buckets rd u R Hu cell gaps fts k d g HC Rc Ed Eg)]. destruct (gap_cases _ _ _ (rec_mfm _ _ _ Rc) Eg) as [-> | [-> | ->]]; cbn; auto.
  - exact E.
  - assert (M : (median b <= 100000)%N /\ ((Z.of_N (median b) <= 1983)%Z \/ (2943 <= Z.of_N (median b))%Z)) by (destruct Hb as [<- | [<- | [<- | []]]]; (split; [vm_compute; discriminate|vm_compute]); [left; discriminate|right; discriminate|right; discriminate]). destruct M as [M1 M2]. pose proof (speed_of (median b) M1) as S. cbv zeta in S.
    rewrite !Zle_Qle in M2. change (inject_Z 1983) with 1983 in M2. change (inject_Z 2943) with 2943 in M2. set (y := inject_Z (Z.of_N (median b))) in *. set (z := speed _) in *. clearbody y z. destruct M2; [left|right]; lra.
Qed.

(* 1.2 us cells *)
Definition c12 : Q := 12 # 10000000.
Lemma r3_bucket cell gaps deltas k d g : cell_of c12 cell -> recording_360 cell gaps deltas -> nth_error deltas k = Some d -> nth_error gaps k = Some g ->
  (g = 2%nat /\ bucket_of (to_ns rd d) = Some 73%nat) \/ (g = 3%nat /\ (bucket_of (to_ns rd d) = Some 77%nat \/ bucket_of (to_ns rd d) = Some 78%nat)) \/ (g = 4%nat /\ bucket_of (to_ns rd d) = Some 81%nat).
Proof.
  intros HC Rc Ed Eg. pose proof (near_each _ _ _ _ _ _ _ (r3_near _ _ _ Rc) Ed Eg) as A. apply Qabs_Qle_condition in A. unfold cell_of, c12 in HC. destruct (gap_cases _ _ _ (r3_mfm _ _ _ Rc) Eg) as [-> | [-> | ->]].
  - left. split; [reflexivity|]. change (Qnat 2) with (2 # 1) in A. apply (bucket_between rd u R Hu d 2304 2559 11 1); [lia|lia|lia|reflexivity|reflexivity|apply Qle_bool_iff; reflexivity|]. change (inject_Z 2304) with (2304 # 1). change (inject_Z 2559) with (2559 # 1). lra.
  - right. left. split; [reflexivity|]. change (Qnat 3) with (3 # 1) in A.
    assert (D : inject_Z 3328 + 1 <= d * 1000000000 /\ d * 1000000000 <= inject_Z 3839) by (change (inject_Z 3328) with (3328 # 1); change (inject_Z 3839) with (3839 # 1); lra).
    pose proof (to_ns_in rd u R (Hu' u Hu) d 3328 3839 ltac:(lia) (proj1 D) (proj2 D) ltac:(apply Qle_bool_iff; reflexivity)) as T. change (Z.to_N 3328) with 3328%N in T. change (Z.to_N 3839) with 3839%N in T.
    destruct (N.lt_ge_cases (to_ns rd d) 3584) as [B|B]; [left; apply (bucket_in _ 11 5)|right; apply (bucket_in _ 11 6)]; try lia; [change (2 ^ N.of_nat 11)%N with 2048%N; change (2 ^ N.of_nat (11 - 3))%N with 256%N; lia|change (2 ^ N.of_nat 11)%N with 2048%N; change (2 ^ N.of_nat (11 - 3))%N with 256%N; lia].
  - right. right. split; [reflexivity|]. change (Qnat 4) with (4 # 1) in A. apply (bucket_between rd u R Hu d 4608 5119 12 1); [lia|lia|lia|reflexivity|reflexivity|apply Qle_bool_iff; reflexivity|]. change (inject_Z 4608) with (4608 # 1). change (inject_Z 5119) with (5119 # 1). lra.
Qed.
(* counts of buckets over paired lists *)
Lemma pair_counts : forall gaps deltas, length deltas = length gaps ->
  (forall k d g, nth_error deltas k = Some d -> nth_error gaps k = Some g -> (g = 2%nat /\ bucket_of (to_ns rd d) = Some 73%nat) \/ (g = 3%nat /\ (bucket_of (to_ns rd d) = Some 77%nat \/ bucket_of (to_ns rd d) = Some 78%nat)) \/ (g = 4%nat /\ bucket_of (to_ns rd d) = Some 81%nat)) ->
  length (filter (in_bucket rd 73%nat) deltas) = count_occ Nat.eq_dec gaps 2%nat /\ (length (filter (in_bucket rd 77%nat) deltas) + length (filter (in_bucket rd 78%nat) deltas) = count_occ Nat.eq_dec gaps 3%nat)%nat /\
  forall i, (i <> 73 /\ i <> 77 /\ i <> 78 /\ i <> 81)%nat -> filter (in_bucket rd i) deltas = [].
Proof.
  induction gaps as [|g gaps IH]; intros [|d deltas] L H; try discriminate; [split; [reflexivity|split; reflexivity]|].
  destruct (IH deltas ltac:(injection L as L; exact L) (fun k d' g' A B => H (S k) d' g' A B)) as (I1 & I2 & I3).
  assert (F : forall i b, bucket_of (to_ns rd d) = Some b -> filter (in_bucket rd i) (d :: deltas) = if (b =? i)%nat then d :: filter (in_bucket rd i) deltas else filter (in_bucket rd i) deltas) by (intros i b E; cbn [filter]; unfold in_bucket at 1; rewrite E; reflexivity).
  destruct (H 0%nat d g eq_refl eq_refl) as [[-> E]|[[-> [E | E]]|[-> E]]]; rewrite !(F _ _ E); cbn [Nat.eqb count_occ length].
  - split; [destruct (Nat.eq_dec 2%nat 2%nat); lia|]. split; [destruct (Nat.eq_dec 2%nat 3%nat); lia|]. intros i Hi. rewrite (F _ _ E). replace (73 =? i)%nat with false by (symmetry; apply Nat.eqb_neq; lia). apply I3; exact Hi.
  - split; [destruct (Nat.eq_dec 3%nat 2%nat); lia|]. split; [destruct (Nat.eq_dec 3%nat 3%nat); lia|]. intros i Hi. rewrite (F _ _ E). replace (77 =? i)%nat with false by (symmetry; apply Nat.eqb_neq; lia). apply I3; exact Hi.
  - split; [destruct (Nat.eq_dec 3%nat 2%nat); lia|]. split; [destruct (Nat.eq_dec 3%nat 3%nat); lia|]. intros i Hi. rewrite (F _ _ E). replace (78 =? i)%nat with false by (symmetry; apply Nat.eqb_neq; lia). apply I3; exact Hi.
  - split; [destruct (Nat.eq_dec 4%nat 2%nat); lia|]. split; [destruct (Nat.eq_dec 4%nat 3%nat); lia|]. intros i Hi. rewrite (F _ _ E). replace (81 =? i)%nat with false by (symmetry; apply Nat.eqb_neq; lia). apply I3; exact Hi.
Qed.
(* 2% of the transitions *)
Lemma take_2 n : (N.of_nat n <= 1000000)%N -> let k := round_nat (rd (inject_Z (Z.of_nat n) * c02)) in (50 * k <= n + 50 /\ n <= 50 * k + 50)%nat.
Proof.
  intros Hn k. assert (H0 : 0 <= inject_Z (Z.of_nat n)) by (change 0 with (inject_Z 0); rewrite <- Zle_Qle; lia). assert (H1 : inject_Z (Z.of_nat n) <= 1000000) by (change 1000000 with (inject_Z 1000000); rewrite <- Zle_Qle; lia).
  set (x := inject_Z (Z.of_nat n)) in *. assert (Hy : (1999 # 100000) * x <= x * c02) by (assert ((1999 # 100000) <= c02) by (apply Qle_bool_iff; reflexivity); rewrite (Qmult_comm x); apply Qmult_le_compat_r; assumption).
  assert (Hy1 : x * c02 - (2 # 100) * x <= 1 # 1000 /\ (2 # 100) * x - x * c02 <= 1 # 1000).
  { assert (c02 - (2 # 100) <= 1 # 1000000000000 /\ (2 # 100) - c02 <= 1 # 1000000000000) as [C1 C2] by (split; apply Qle_bool_iff; reflexivity).
    assert (E1 : x * c02 - (2 # 100) * x == (c02 - (2 # 100)) * x) by ring. assert (E2 : (2 # 100) * x - x * c02 == ((2 # 100) - c02) * x) by ring. rewrite E1, E2.
    assert (D1 : (c02 - (2 # 100)) * x <= (1 # 1000000000000) * x) by (apply Qmult_le_compat_r; assumption). assert (D2 : ((2 # 100) - c02) * x <= (1 # 1000000000000) * x) by (apply Qmult_le_compat_r; assumption). lra. }
  destruct (rd_pos rd u R (Hu' u Hu) (x * c02) ltac:(lra)) as [A B]. set (y := x * c02) in *. set (r := rd y) in *. subst k. unfold round_nat. fold r. pose proof (Qfloor_le (r + (1 # 2))) as F1. pose proof (Qlt_floor (r + (1 # 2))) as F2. rewrite inject_Z_plus in F2. change (inject_Z 1) with 1 in F2.
  assert (F0 : (0 <= Qfloor (r + (1 # 2)))%Z) by (rewrite <- (Qfloor_Z 0); apply Qfloor_resp_le; change (inject_Z 0) with 0; lra). set (f := Qfloor (r + (1 # 2))) in *.
  assert (K1 : inject_Z 50 * inject_Z f <= x + inject_Z 50) by (change (inject_Z 50) with 50; clearbody f y r; lra). assert (K2 : x <= inject_Z 50 * inject_Z f + inject_Z 50) by (change (inject_Z 50) with 50; clearbody f y r; lra).
  unfold x in K1, K2. rewrite <- inject_Z_mult, <- inject_Z_plus, <- Zle_Qle in K1, K2. lia.
Qed.
Lemma r3_small cell gaps deltas : cell_of c12 cell -> recording_360 cell gaps deltas -> (N.of_nat (length gaps) <= 1000000)%N.
Proof.
  intros [HC _] Rc. unfold c12 in HC. pose proof (r3_time _ _ _ Rc) as T. assert (Gl : (2 * length gaps <= list_sum gaps)%nat) by (generalize (r3_mfm _ _ _ Rc); clear; induction 1 as [|g gaps Hg _ IH]; [apply le_n|]; cbn [length list_sum fold_right]; fold (list_sum gaps); lia).
  assert (Q0 : 0 <= Qnat (list_sum gaps)) by (unfold Qnat; change 0 with (inject_Z 0); rewrite <- Zle_Qle; lia).
  assert (T2 : (99 # 100000000) * (Qnat (list_sum gaps) + 10) <= 1 # 2) by (eapply Qle_trans; [|exact T]; apply Qmult_le_compat_r; lra).
  assert (K : Qnat (list_sum gaps) <= inject_Z 1000000) by (change (inject_Z 1000000) with 1000000; lra). unfold Qnat in K. rewrite <- Zle_Qle in K. lia.
Qed.
Lemma r3_base cell gaps deltas : cell_of c12 cell -> recording_360 cell gaps deltas -> starts_well gaps -> (100 <= N.of_nat (length gaps))%N ->
  base_transition_time rd (hist_new rd deltas c02) = Some (rd (inject_Z (Z.of_N (median 73%nat)) / 1000000000)).
Proof.
  intros HC Rc SW Hl. pose proof (r3_small _ _ _ HC Rc) as Hs. pose proof (take_2 (length gaps) Hs) as T2. cbv zeta in T2. pose proof (proj1 (r3_near _ _ _ Rc)) as L.
  set (k := round_nat (rd (inject_Z (Z.of_nat (length gaps)) * c02))) in *. assert (Es : sample rd deltas c02 = firstn k deltas) by (unfold sample; rewrite L; reflexivity).
  destruct (SW k (proj1 T2) (proj2 T2)) as [S2 S3]. assert (Hk : (1 <= k <= length gaps)%nat) by lia.
  destruct (pair_counts (firstn k gaps) (firstn k deltas)) as (C2 & C3 & C0).
  - rewrite !firstn_length. lia.
  - intros j d g Ed Eg. rewrite nth_error_firstn in Ed. rewrite nth_error_firstn in Eg. destruct (j <? k)%nat; [|discriminate]. exact (r3_bucket cell gaps deltas j d g HC Rc Ed Eg).
  - set (cs := hist_new rd deltas c02). assert (Cn : forall i, (i < 96)%nat -> nth i cs 0%nat = length (filter (in_bucket rd i) (firstn k deltas))) by (intros i Hi; unfold cs; rewrite hist_nth by exact Hi; rewrite Es; reflexivity).
    assert (Cz : forall i, (i < 96)%nat -> (i <> 73 /\ i <> 77 /\ i <> 78 /\ i <> 81)%nat -> nth i cs 0%nat = 0%nat) by (intros i Hi Hn; rewrite Cn by exact Hi; rewrite C0 by exact Hn; reflexivity).
    assert (Tl : (list_sum cs <= k)%nat) by (unfold cs; eapply Nat.le_trans; [apply total_le|]; rewrite Es, firstn_length; lia).
    assert (Thr : forall c, (1 <= c)%nat -> (2 * k <= 100 * c)%nat -> (thr_of rd cs <=? c)%nat = true) by (intros c H1 H2; apply Nat.leb_le; apply (threshold_ok rd u R Hu _ k); [exact Tl|lia|exact H1|exact H2]).
    set (a := nth 73%nat cs 0%nat). set (b := nth 77%nat cs 0%nat). set (c := nth 78%nat cs 0%nat). assert (Ha : a = count_occ Nat.eq_dec (firstn k gaps) 2%nat) by (unfold a; rewrite Cn by lia; exact C2).
    assert (Hbc : (b + c = count_occ Nat.eq_dec (firstn k gaps) 3%nat)%nat) by (unfold b, c; rewrite !Cn by lia; exact C3).
    assert (Pa : peak (thr_of rd cs) cs 73%nat = true).
    { unfold peak. cbn [Nat.sub]. rewrite (Cz 72%nat), (Cz 74%nat) by lia. fold a. rewrite Thr by lia. apply andb_true_iff. split; [|reflexivity]. apply andb_true_iff. split; [reflexivity|apply Nat.ltb_lt; lia]. }
    destruct (Nat.le_gt_cases b c) as [O|O].
    + apply (base_time_is rd cs 73%nat 78%nat); [intros i Hi; apply Cz; lia|lia|lia|unfold cs; rewrite hist_length; lia|exact Pa|]. unfold peak. cbn [Nat.sub]. rewrite (Cz 79%nat) by lia. fold b c. rewrite Thr by lia. apply andb_true_iff. split; [|reflexivity]. apply andb_true_iff. split; [apply Nat.leb_le; exact O|apply Nat.ltb_lt; lia].
    + apply (base_time_is rd cs 73%nat 77%nat); [intros i Hi; apply Cz; lia|lia|lia|unfold cs; rewrite hist_length; lia|exact Pa|]. unfold peak. cbn [Nat.sub]. rewrite (Cz 76%nat) by lia. fold b c. rewrite Thr by lia. apply andb_true_iff. split; [|reflexivity]. apply andb_true_iff. split; [reflexivity|apply Nat.ltb_lt; lia].
Qed.
Definition slowed (d : Q) : Q := rd (d * c56).
Lemma slowed_ok d : 0 <= d -> Qabs (slowed d - (5 # 6) * d) <= (1 # 100000000000) * d.
Proof.
  intros H. unfold slowed. assert (C : (5 # 6) - (1 # 1000000000000) <= c56 <= (5 # 6) + (1 # 1000000000000)) by (split; apply Qle_bool_iff; reflexivity). destruct C as [C1 C2].
  assert (A : ((5 # 6) - (1 # 1000000000000)) * d <= c56 * d) by (apply Qmult_le_compat_r; assumption). assert (B : c56 * d <= ((5 # 6) + (1 # 1000000000000)) * d) by (apply Qmult_le_compat_r; assumption).
  assert (E : d * c56 == c56 * d) by ring. destruct (rd_pos rd u R (Hu' u Hu) (d * c56) ltac:(lra)) as [D F]. set (r := rd (d * c56)) in *. rewrite E in D, F. set (y := c56 * d) in *. clearbody y r. apply Qabs_Qle_condition. lra.
Qed.
Lemma slowed_sum : forall l, Forall (fun d => 0 <= d) l -> 0 <= Qsum l /\ Qabs (Qsum (map slowed l) - (5 # 6) * Qsum l) <= (1 # 100000000000) * Qsum l.
Proof.
  induction 1 as [|d l Hd _ [I0 I]]; [split; [apply Qle_refl|apply Qle_bool_iff; reflexivity]|]. cbn [map Qsum fold_right]. fold (Qsum (map slowed l)). fold (Qsum l). split; [lra|]. apply Qabs_Qle_condition in I. pose proof (slowed_ok d Hd) as A. apply Qabs_Qle_condition in A. apply Qabs_Qle_condition.
  set (a := slowed d) in *. set (b := Qsum (map slowed l)) in *. set (c := Qsum l) in *. clearbody a b c. lra.
Qed.
Lemma r3_pos cell gaps deltas : cell_of c12 cell -> recording_360 cell gaps deltas -> Forall (fun d => 0 <= d) deltas.
Proof.
  intros HC Rc. apply Forall_forall. intros d Hd. apply In_nth_error in Hd. destruct Hd as [k Ek]. assert (Hk : (k < length gaps)%nat) by (rewrite <- (proj1 (r3_near _ _ _ Rc)); apply nth_error_Some; congruence).
    destruct (nth_error gaps k) as [g|] eqn:Eg; [|apply nth_error_None in Eg; lia]. pose proof (near_each _ _ _ _ _ _ _ (r3_near _ _ _ Rc) Ek Eg) as A. apply Qabs_Qle_condition in A. unfold cell_of, c12 in HC. assert (Gq : 2 <= Qnat g) by (unfold Qnat; change 2 with (inject_Z 2); rewrite <- Zle_Qle; destruct (gap_cases _ _ _ (r3_mfm _ _ _ Rc) Eg) as [-> | [-> | ->]]; lia).
    assert (B : 2 * cell <= Qnat g * cell) by (apply Qmult_le_compat_r; lra). rewrite (Qmult_comm cell) in A. set (z := Qnat g * cell) in *. clearbody z. lra.
Qed.
Lemma r3_slowed cell gaps deltas : cell_of c12 cell -> recording_360 cell gaps deltas -> recording ((5 # 6) * cell) gaps (map slowed deltas).
Proof.
  intros HC Rc. pose proof (r3_pos cell gaps deltas HC Rc) as Hpos.
  constructor.
  - exact (r3_mfm _ _ _ Rc).
  - exact (r3_some _ _ _ Rc).
  - exact (r3_medium _ _ _ Rc).
  - destruct (r3_near _ _ _ Rc) as [L H]. split; [rewrite map_length; exact L|]. intros k Hk. specialize (H k Hk). rewrite firstn_map. assert (Hf : Forall (fun d => 0 <= d) (firstn k deltas)) by (rewrite Forall_forall in *; intros d Hd; apply Hpos; rewrite <- (firstn_skipn k deltas); apply in_or_app; left; exact Hd).
    destruct (slowed_sum _ Hf) as [S0 S1]. apply Qabs_Qle_condition in H, S1. apply Qabs_Qle_condition.
    assert (Hq : Qnat (list_sum (firstn k gaps)) <= Qnat (list_sum gaps)) by (unfold Qnat; rewrite <- Zle_Qle; rewrite <- (firstn_skipn k gaps) at 2; rewrite list_sum_app; lia).
    pose proof (r3_time _ _ _ Rc) as T. unfold cell_of, c12 in HC. assert (B : cell * Qnat (list_sum (firstn k gaps)) <= cell * Qnat (list_sum gaps)) by (rewrite !(Qmult_comm cell); apply Qmult_le_compat_r; lra).
    assert (T2 : cell * (Qnat (list_sum gaps) + 10) == cell * Qnat (list_sum gaps) + 10 * cell) by ring. rewrite T2 in T. assert (E6 : (5 # 6) * cell * Qnat (list_sum (firstn k gaps)) == (5 # 6) * (cell * Qnat (list_sum (firstn k gaps)))) by ring. rewrite E6. clear E6 T2.
    set (p := cell * Qnat (list_sum (firstn k gaps))) in *. set (q := cell * Qnat (list_sum gaps)) in *. set (s := Qsum (firstn k deltas)) in *. set (s' := Qsum (map slowed (firstn k deltas))) in *. clearbody p q s s'. lra.
  - pose proof (r3_time _ _ _ Rc) as T. assert (E6 : (5 # 6) * cell * (Qnat (list_sum gaps) + 10) == (5 # 6) * (cell * (Qnat (list_sum gaps) + 10))) by ring. rewrite E6. set (z := cell * (Qnat (list_sum gaps) + 10)) in *. clearbody z. lra.
Qed.
Lemma adjust_360 cell gaps deltas : cell_of c12 cell -> recording_360 cell gaps deltas -> starts_well gaps -> (100 <= N.of_nat (length gaps))%N -> exists rpm, mfi_normalize rd deltas = (map slowed deltas, Some rpm) /\ 340 <= rpm <= 380.
Proof.
  intros HC Rc SW Hl. unfold mfi_normalize. rewrite (r3_base cell gaps deltas HC Rc SW Hl). cbv zeta. fold (speed (rd (inject_Z (Z.of_N (median 73%nat)) / 1000000000))). pose proof (speed_of (median 73%nat) ltac:(vm_compute; discriminate)) as S. cbv zeta in S. change (Z.of_N (median 73%nat)) with 2431%Z in S. change (inject_Z 2431) with 2431 in S.
  change (Z.of_N (median 73%nat)) with 2431%Z. change (inject_Z 2431) with 2431. set (z := speed _) in *. clearbody z. assert (E : in_range 340 380 z = true) by (apply in_range_iff; lra). rewrite E. exists z. split; [reflexivity|lra].
Qed.
End norm.
