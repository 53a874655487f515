(* Hist3_proofs.v - standard tracks. *)
From Verif Require Import Base Base_lemmas Pll_spec Pll_model Pll_props Hist_model Hist_spec Hist_proofs Hist2_proofs.
From Coq Require Import QArith Qabs Qround Lia Lqa.
Import ListNotations.
Local Open Scope Q_scope.

Lemma Qsum_snoc l x : Qsum (l ++ [x]) == Qsum l + x.
Proof. induction l as [|y l IH]; [cbn; ring|]. cbn [app Qsum fold_right]. fold (Qsum (l ++ [x])). rewrite IH. cbn [Qsum fold_right]. fold (Qsum l). ring. Qed.
Lemma firstn_snoc {A} (l : list A) k x : nth_error l k = Some x -> firstn (S k) l = firstn k l ++ [x].
Proof. revert k. induction l as [|y l IH]; intros [|k] H; try discriminate; [injection H as ->; reflexivity|]. cbn [firstn app]. f_equal. apply IH. exact H. Qed.
Lemma list_sum_snoc l x : (list_sum (l ++ [x]) = list_sum l + x)%nat.
Proof. rewrite list_sum_app. cbn. lia. Qed.
Lemma near_each cell j gaps deltas k d g : near cell j gaps deltas -> nth_error deltas k = Some d -> nth_error gaps k = Some g -> Qabs (d - cell * Qnat g) <= 2 * j.
Proof.
  intros [L H] Ed Eg. assert (Hk : (S k <= length gaps)%nat) by (apply nth_error_Some; congruence).
  pose proof (H k ltac:(lia)) as A. pose proof (H (S k) Hk) as B. rewrite (firstn_snoc _ _ _ Ed), (firstn_snoc _ _ _ Eg), list_sum_snoc in B.
  apply Qabs_Qle_condition in A. apply Qabs_Qle_condition in B. apply Qabs_Qle_condition. rewrite Qsum_snoc in B.
  assert (E : Qnat (list_sum (firstn k gaps) + g) == Qnat (list_sum (firstn k gaps)) + Qnat g) by (unfold Qnat; rewrite Nat2Z.inj_add, inject_Z_plus; reflexivity).
  assert (E2 : cell * Qnat (list_sum (firstn k gaps) + g) == cell * Qnat (list_sum (firstn k gaps)) + cell * Qnat g) by (rewrite E; ring). rewrite E2 in B.
  set (a := Qsum (firstn k deltas)) in *. set (b := cell * Qnat (list_sum (firstn k gaps))) in *. set (c := cell * Qnat g) in *. clearbody a b c. lra.
Qed.
Lemma near_weaken cell j j' gaps deltas : j <= j' -> near cell j gaps deltas -> near cell j' gaps deltas.
Proof. intros H [L N]. split; [exact L|]. intros k Hk. eapply Qle_trans; [exact (N k Hk)|exact H]. Qed.

Section std.
Variable rd : Q -> Q.
Variable u : Q.
Hypothesis R : rounds_rel rd u.
Hypothesis Hu : 0 <= u <= 1 # 9007199254740992.
Lemma Hu' : 0 <= u <= 1 # 1000000000000.
Proof. destruct Hu as [A B]. split; [exact A|]. eapply Qle_trans; [exact B|]. apply Qle_bool_iff. reflexivity. Qed.

(* the bucket of each transition *)
Definition dd_bucket (g : nat) : nat := (match g with 2 => 79 | 3 => 83 | _ => 87 end)%nat.
Definition hd_bucket (g : nat) : nat := (match g with 2 => 71 | 3 => 75 | _ => 79 end)%nat.
Lemma gap_cases gaps k g : mfm_gaps gaps -> nth_error gaps k = Some g -> (g = 2 \/ g = 3 \/ g = 4)%nat.
Proof. intros H E. apply nth_error_In in E. unfold mfm_gaps in H. rewrite Forall_forall in H. specialize (H g E). lia. Qed.
Lemma bucket_between d lo hi p q : (4 <= p <= 13)%nat -> (q < 8)%nat -> (0 <= lo)%Z -> Z.to_N lo = (2 ^ N.of_nat p + N.of_nat q * 2 ^ N.of_nat (p - 3))%N -> (Z.to_N hi + 1 = 2 ^ N.of_nat p + N.of_nat (S q) * 2 ^ N.of_nat (p - 3))%N ->
  inject_Z hi <= 100000 -> inject_Z lo + 1 <= d * 1000000000 <= inject_Z hi -> bucket_of (to_ns rd d) = Some (16 + 8 * (p - 4) + q)%nat.
Proof.
  intros Hp Hq H0 El Eh Hh [A B]. pose proof (to_ns_in rd u R Hu' d lo hi H0 A B Hh) as T. apply bucket_in; [exact Hp|exact Hq|]. rewrite <- El, <- Eh. lia.
Qed.
Lemma dd_buckets cell gaps deltas k d g : cell_of (us 2) cell -> recording cell gaps deltas -> nth_error deltas k = Some d -> nth_error gaps k = Some g -> bucket_of (to_ns rd d) = Some (dd_bucket g).
Proof.
  intros HC Rc Ed Eg. pose proof (near_each _ _ _ _ _ _ _ (rec_near _ _ _ Rc) Ed Eg) as A. apply Qabs_Qle_condition in A. unfold cell_of, us in HC. destruct (gap_cases _ _ _ (rec_mfm _ _ _ Rc) Eg) as [-> | [-> | ->]]; cbn [dd_bucket].
  - change (Qnat 2) with (2 # 1) in A. apply (bucket_between d 3840 4095 11 7); [lia|lia|lia|reflexivity|reflexivity|apply Qle_bool_iff; reflexivity|]. change (inject_Z 3840) with (3840 # 1). change (inject_Z 4095) with (4095 # 1). lra.
  - change (Qnat 3) with (3 # 1) in A. apply (bucket_between d 5632 6143 12 3); [lia|lia|lia|reflexivity|reflexivity|apply Qle_bool_iff; reflexivity|]. change (inject_Z 5632) with (5632 # 1). change (inject_Z 6143) with (6143 # 1). lra.
  - change (Qnat 4) with (4 # 1) in A. apply (bucket_between d 7680 8191 12 7); [lia|lia|lia|reflexivity|reflexivity|apply Qle_bool_iff; reflexivity|]. change (inject_Z 7680) with (7680 # 1). change (inject_Z 8191) with (8191 # 1). lra.
Qed.
Lemma hd_buckets cell gaps deltas k d g : cell_of (us 1) cell -> recording cell gaps deltas -> nth_error deltas k = Some d -> nth_error gaps k = Some g -> bucket_of (to_ns rd d) = Some (hd_bucket g).
Proof.
  intros HC Rc Ed Eg. pose proof (near_each _ _ _ _ _ _ _ (rec_near _ _ _ Rc) Ed Eg) as A. apply Qabs_Qle_condition in A. unfold cell_of, us in HC. destruct (gap_cases _ _ _ (rec_mfm _ _ _ Rc) Eg) as [-> | [-> | ->]]; cbn [hd_bucket].
  - change (Qnat 2) with (2 # 1) in A. apply (bucket_between d 1920 2047 10 7); [lia|lia|lia|reflexivity|reflexivity|apply Qle_bool_iff; reflexivity|]. change (inject_Z 1920) with (1920 # 1). change (inject_Z 2047) with (2047 # 1). lra.
  - change (Qnat 3) with (3 # 1) in A. apply (bucket_between d 2816 3071 11 3); [lia|lia|lia|reflexivity|reflexivity|apply Qle_bool_iff; reflexivity|]. change (inject_Z 2816) with (2816 # 1). change (inject_Z 3071) with (3071 # 1). lra.
  - change (Qnat 4) with (4 # 1) in A. apply (bucket_between d 3840 4095 11 7); [lia|lia|lia|reflexivity|reflexivity|apply Qle_bool_iff; reflexivity|]. change (inject_Z 3840) with (3840 # 1). change (inject_Z 4095) with (4095 # 1). lra.
Qed.
Lemma in_gap cell gaps deltas d : recording cell gaps deltas -> In d deltas -> exists k g, nth_error deltas k = Some d /\ nth_error gaps k = Some g.
Proof.
  intros Rc Hd. apply In_nth_error in Hd. destruct Hd as [k Ek]. exists k. assert (Hk : (k < length gaps)%nat) by (rewrite <- (proj1 (rec_near _ _ _ Rc)); apply nth_error_Some; congruence).
  destruct (nth_error gaps k) as [g|] eqn:Eg; [exists g; split; [exact Ek|reflexivity]|]. apply nth_error_None in Eg. lia.
Qed.
Lemma refine_dd cell gaps deltas base : cell_of (us 2) cell -> recording cell gaps deltas -> (99 # 100) * us 2 <= base <= (10001 # 10000) * us 2 -> (99 # 100) * us 2 <= refine_clock rd base deltas <= (10001 # 10000) * us 2.
Proof.
  intros HC Rc Hb. apply (refine_ok rd u R Hu' deltas base (us 2) 79 83 87); [reflexivity|exact Hb| |cbv; discriminate|cbv; discriminate|cbv; discriminate|split; apply Qle_bool_iff; vm_compute; reflexivity|apply Qle_bool_iff; vm_compute; reflexivity|apply Qle_bool_iff; vm_compute; reflexivity].
  intros d Hd. destruct (in_gap _ _ _ _ Rc Hd) as (k & g & Ed & Eg). rewrite (dd_buckets cell gaps deltas k d g HC Rc Ed Eg). destruct (gap_cases _ _ _ (rec_mfm _ _ _ Rc) Eg) as [-> | [-> | ->]]; auto.
Qed.
Lemma refine_hd cell gaps deltas base : cell_of (us 1) cell -> recording cell gaps deltas -> (99 # 100) * us 1 <= base <= (10001 # 10000) * us 1 -> (99 # 100) * us 1 <= refine_clock rd base deltas <= (10001 # 10000) * us 1.
Proof.
  intros HC Rc Hb. apply (refine_ok rd u R Hu' deltas base (us 1) 71 75 79); [reflexivity|exact Hb| |cbv; discriminate|cbv; discriminate|cbv; discriminate|split; apply Qle_bool_iff; vm_compute; reflexivity|apply Qle_bool_iff; vm_compute; reflexivity|apply Qle_bool_iff; vm_compute; reflexivity].
  intros d Hd. destruct (in_gap _ _ _ _ Rc Hd) as (k & g & Ed & Eg). rewrite (hd_buckets cell gaps deltas k d g HC Rc Ed Eg). destruct (gap_cases _ _ _ (rec_mfm _ _ _ Rc) Eg) as [-> | [-> | ->]]; auto.
Qed.
(* with a clock near the nominal one the track decodes *)
Lemma decode_with fuel hint rpm index X cell gaps deltas : (4 <= fuel)%nat -> us 1 <= X -> X <= us 2 -> cell_of X cell -> recording cell gaps deltas ->
  (99 # 100) * X <= choose_clock rd hint rpm deltas index <= (10001 # 10000) * X -> decode_revolution rd fuel hint rpm deltas index = Some (Ok (cells_of gaps, true)).
Proof.
  intros Hf X1 X2 HC Rc Hk. unfold us in X1, X2. unfold cell_of in HC. unfold decode_revolution. set (clk := choose_clock rd hint rpm deltas index) in *. clearbody clk.
  destruct (pll_period_ok rd u R Hu' clk ltac:(lra) ltac:(lra)) as (p & -> & Hp). destruct Rc as [Rm Rs R3 Rn Rt].
  assert (Gl : (2 * length gaps <= list_sum gaps)%nat) by (clear - Rm; induction Rm as [|g gaps Hg _ IH]; [apply le_n|]; cbn [length list_sum fold_right]; fold (list_sum gaps); lia).
  assert (Gq : 2 * Qnat (length gaps) <= Qnat (list_sum gaps)) by (unfold Qnat; change 2 with (inject_Z 2); rewrite <- inject_Z_mult, <- Zle_Qle; lia).
  assert (Lq : 0 <= Qnat (length gaps)) by (unfold Qnat; change 0 with (inject_Z 0); rewrite <- Zle_Qle; lia).
  rewrite (C61_decode_direct rd 1 u fuel (mkPll p p c20 c65) cell gaps deltas); try assumption; try reflexivity.
  - intros x Hx. eapply Qle_trans; [apply R|]. rewrite <- (Qmult_1_r u) at 2. rewrite !(Qmult_comm u). apply Qmult_le_compat_r; [exact Hx|apply Hu].
  - apply Hu.
  - assert (Hc : (99 # 100000000) <= cell) by lra. assert (T : (99 # 100000000) * (Qnat (list_sum gaps) + 10) <= 1 # 2).
    { eapply Qle_trans; [|exact Rt]. apply Qmult_le_compat_r; [exact Hc|lra]. }
    assert (L : Qnat (length gaps) + 20 <= 300000) by lra. eapply Qle_trans; [apply Qmult_le_compat_r; [exact L|apply Hu]|]. destruct Hu as [_ U2]. lra.
  - eapply Qle_trans; [exact Rt|]. apply Qle_bool_iff. reflexivity.
  - lra.
  - apply (near_weaken cell ((1 # 100) * cell)); [lra|exact Rn].
  - cbn [pll_period]. apply Qabs_Qle_condition. lra.
  - apply Qle_bool_iff. reflexivity.
  - destruct Hu as [_ U2]. lra.
Qed.
Lemma rpm_300 rpm index : about_300 index -> is_360 rd rpm index = false.
Proof.
  intros [A B]. unfold is_360. assert (H0 : 260 <= 60 / index) by (apply Qle_shift_div_l; lra). assert (H1 : 60 / index <= 334) by (apply Qle_shift_div_r; lra).
  destruct (rd_pos rd u R Hu' (60 / index) ltac:(lra)) as [C D]. set (x := 60 / index) in *. set (y := rd x) in *. clearbody x y.
  replace (in_range 255 345 y) with true; [reflexivity|]. symmetry. unfold in_range, Qlt_bool. apply andb_true_iff. split; [apply Qle_bool_iff; lra|]. apply negb_true_iff. apply not_true_iff_false. intros X. apply Qle_bool_iff in X. lra.
Qed.

(* the histogram of the whole track *)
Lemma sample_all deltas : (N.of_nat (length deltas) <= 1000000)%N -> sample rd deltas 1 = deltas.
Proof.
  intros H. unfold sample. set (n := length deltas) in *. assert (Hn : 0 <= inject_Z (Z.of_nat n)) by (change 0 with (inject_Z 0); rewrite <- Zle_Qle; lia).
  assert (Hm : inject_Z (Z.of_nat n) <= 1000000) by (change 1000000 with (inject_Z 1000000); rewrite <- Zle_Qle; lia).
  assert (E1 : inject_Z (Z.of_nat n) * 1 == inject_Z (Z.of_nat n)) by ring. destruct (rd_pos rd u R Hu' (inject_Z (Z.of_nat n) * 1) ltac:(lra)) as [A B]. rewrite E1 in A at 1 2. rewrite E1 in B at 2 3.
  set (r := rd (inject_Z (Z.of_nat n) * 1)) in *. clearbody r. unfold round_nat.
  assert (F : Qfloor (r + (1 # 2)) = Z.of_nat n).
  { assert (F1 : (Z.of_nat n <= Qfloor (r + (1 # 2)))%Z) by (rewrite <- (Qfloor_Z (Z.of_nat n)); apply Qfloor_resp_le; lra).
    assert (F2 : (Qfloor (r + (1 # 2)) < Z.of_nat n + 1)%Z) by (rewrite Zlt_Qlt, inject_Z_plus; change (inject_Z 1) with 1; pose proof (Qfloor_le (r + (1 # 2))); lra). lia. }
  rewrite F, Nat2Z.id. apply firstn_all.
Qed.
Lemma count_in (bk : nat -> nat) gaps deltas i : length deltas = length gaps -> (forall k d g, nth_error deltas k = Some d -> nth_error gaps k = Some g -> bucket_of (to_ns rd d) = Some (bk g)) ->
  length (filter (in_bucket rd i) deltas) = length (filter (fun g => (bk g =? i)%nat) gaps).
Proof.
  revert gaps. induction deltas as [|d deltas IH]; intros [|g gaps] L H; try discriminate; [reflexivity|]. cbn [filter]. unfold in_bucket at 1. rewrite (H 0%nat d g eq_refl eq_refl).
  assert (I : length (filter (in_bucket rd i) deltas) = length (filter (fun g => (bk g =? i)%nat) gaps)) by (apply IH; [injection L as L; exact L|intros k d' g' A B; exact (H (S k) d' g' A B)]).
  destruct (bk g =? i)%nat; cbn [length]; rewrite I; reflexivity.
Qed.
Lemma count_gaps (bk : nat -> nat) gaps g : mfm_gaps gaps -> (2 <= g <= 4)%nat -> (forall a b, (2 <= a <= 4)%nat -> (2 <= b <= 4)%nat -> bk a = bk b -> a = b) ->
  length (filter (fun x => (bk x =? bk g)%nat) gaps) = count_occ Nat.eq_dec gaps g.
Proof.
  intros Hm Hg Inj. induction Hm as [|x l Hx _ IH]; [reflexivity|]. cbn [filter count_occ]. destruct (Nat.eqb_spec (bk x) (bk g)) as [E|E]; destruct (Nat.eq_dec x g) as [E2|E2]; cbn [length]; try (rewrite IH; reflexivity).
  - exfalso. apply E2. apply Inj; assumption.
  - exfalso. apply E. rewrite E2. reflexivity.
Qed.
Lemma threshold_ok total n c : (total <= n)%nat -> (N.of_nat n <= 1000000)%N -> (1 <= c)%nat -> (2 * n <= 100 * c)%nat -> (round_nat (rd (inject_Z (Z.of_nat total) * c005)) <= c)%nat.
Proof.
  intros Ht Hn Hc H2. assert (Hn0 : 0 <= inject_Z (Z.of_nat total)) by (change 0 with (inject_Z 0); rewrite <- Zle_Qle; lia).
  assert (Htn : inject_Z (Z.of_nat total) <= 50 * inject_Z (Z.of_nat c)) by (change 50 with (inject_Z 50); rewrite <- inject_Z_mult, <- Zle_Qle; lia).
  assert (Hc1 : 1 <= inject_Z (Z.of_nat c)) by (change 1 with (inject_Z 1); rewrite <- Zle_Qle; lia).
  set (t := inject_Z (Z.of_nat total)) in *. assert (Hx : t * c005 <= (51 # 10000) * t) by (assert (c005 <= 51 # 10000) by (apply Qle_bool_iff; reflexivity); rewrite (Qmult_comm t); apply Qmult_le_compat_r; assumption).
  assert (Hx0 : 0 <= t * c005) by (apply Qmult_le_0_compat; [exact Hn0|apply Qle_bool_iff; reflexivity]).
  destruct (rd_pos rd u R Hu' (t * c005) Hx0) as [A B]. set (y := t * c005) in *. set (r := rd y) in *. clearbody y r t. unfold round_nat.
  assert (F : (Qfloor (r + (1 # 2)) < Z.of_nat c + 1)%Z) by (rewrite Zlt_Qlt, inject_Z_plus; change (inject_Z 1) with 1; pose proof (Qfloor_le (r + (1 # 2))); lra). lia.
Qed.
Lemma full_base (bk : nat -> nat) gaps deltas : mfm_gaps gaps -> length deltas = length gaps -> (N.of_nat (length gaps) <= 1000000)%N ->
  (forall k d g, nth_error deltas k = Some d -> nth_error gaps k = Some g -> bucket_of (to_ns rd d) = Some (bk g)) ->
  (2 <= bk 2 /\ bk 2 + 2 <= bk 3 /\ bk 3 + 2 <= bk 4 /\ bk 4 < 95)%nat ->
  gaps <> [] -> (2 * length gaps <= 100 * count_occ Nat.eq_dec gaps 2)%nat -> (2 * length gaps <= 100 * count_occ Nat.eq_dec gaps 3)%nat ->
  base_transition_time rd (hist_new rd deltas 1) = Some (rd (inject_Z (Z.of_N (median (bk 2%nat))) / 1000000000)).
Proof.
  intros Hm L Hl HB Hbk Hne H2 H3. set (cs := hist_new rd deltas 1).
  assert (Cn : forall i, (i < 96)%nat -> nth i cs 0%nat = length (filter (fun g => (bk g =? i)%nat) gaps)).
  { intros i Hi. unfold cs. rewrite hist_nth by exact Hi. rewrite sample_all by lia. apply count_in; assumption. }
  assert (Z0 : forall i, (i < 96)%nat -> (i <> bk 2 /\ i <> bk 3 /\ i <> bk 4)%nat -> nth i cs 0%nat = 0%nat).
  { intros i Hi Hne'. rewrite (Cn i Hi). assert (G : forall l, mfm_gaps l -> length (filter (fun g => (bk g =? i)%nat) l) = 0%nat); [|apply G; exact Hm].
    induction 1 as [|x l Hx _ IH]; [reflexivity|]. cbn [filter]. replace (bk x =? i)%nat with false; [exact IH|]. symmetry. apply Nat.eqb_neq. assert (x = 2 \/ x = 3 \/ x = 4)%nat as [-> | [-> | ->]] by lia; lia. }
  assert (Inj : forall a b, (2 <= a <= 4)%nat -> (2 <= b <= 4)%nat -> bk a = bk b -> a = b).
  { intros a b Ha Hb E. assert (a = 2 \/ a = 3 \/ a = 4)%nat as [-> | [-> | ->]] by lia; assert (b = 2 \/ b = 3 \/ b = 4)%nat as [-> | [-> | ->]] by lia; try reflexivity; exfalso; lia. }
  assert (Lp : (1 <= length gaps)%nat) by (destruct gaps; [congruence|cbn; lia]).
  assert (Tl : (list_sum cs <= length gaps)%nat) by (unfold cs; eapply Nat.le_trans; [apply total_le|]; rewrite sample_all by lia; lia).
  assert (Pk : forall g, (g = 2 \/ g = 3)%nat -> peak (thr_of rd cs) cs (bk g) = true).
  { intros g Hg. assert (Hg4 : (2 <= g <= 4)%nat) by lia. assert (Cg : nth (bk g) cs 0%nat = count_occ Nat.eq_dec gaps g) by (rewrite Cn by (destruct Hg as [-> | ->]; lia); apply count_gaps; assumption).
    assert (C2 : (2 * length gaps <= 100 * count_occ Nat.eq_dec gaps g)%nat) by (destruct Hg as [-> | ->]; assumption).
    unfold peak. rewrite Cg, !Z0 by (destruct Hg as [-> | ->]; lia). apply andb_true_iff. split; [apply andb_true_iff; split; [apply Nat.leb_le; lia|apply Nat.ltb_lt; lia]|]. apply Nat.leb_le.
    apply (threshold_ok _ (length gaps)); [exact Tl|exact Hl|lia|exact C2]. }
  apply (base_time_is rd cs (bk 2%nat) (bk 3%nat)).
  - intros i Hi. apply Z0; lia.
  - lia.
  - lia.
  - unfold cs. rewrite hist_length. lia.
  - apply Pk. left. reflexivity.
  - apply Pk. right. reflexivity.
Qed.
End std.
