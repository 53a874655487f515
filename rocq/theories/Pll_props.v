(* Pll_props.v - C61-C63: decoding flux. *)
From Verif Require Import Base Base_lemmas Mfm_proofs BitRing_model Mfm_model Types_model System34_model BitStream_model DiskImage_model Pce_spec Pce3_proofs Hxc_proofs
  Pll_model Pll_inv Pll_spec Pll_proofs Pll2_proofs Pll3_proofs.
From Coq Require Import QArith Qabs Qround Lqa Lia.
Import ListNotations.
Local Open Scope nat_scope.

(* ---- C61 ---- *)
(* A stream of cells 2, 3 or 4 cells apart, each transition up to 7% of a cell early or late, read with a clock up to 3% off, gives exactly
   the recorded cells: for any number of transitions, and with any arithmetic whose rounding errors are small (eps) for the numbers that occur. *)
Theorem C61_mfm_decode : forall rd big eps fuel pll cell gaps deltas,
  rounds rd big eps -> (0 <= eps)%Q -> ((Qnat (length gaps) + 20) * eps <= (5 # 100000) * cell)%Q -> (cell * (Qnat (list_sum gaps) + 10) <= big)%Q ->
  (0 < cell)%Q -> mfm_gaps gaps -> near cell ((7 # 100) * cell) gaps deltas ->
  pll_adj pll = c20 -> pll_work pll = pll_period pll -> (Qabs (pll_period pll - cell) <= (3 # 100) * cell)%Q -> 4 <= fuel ->
  exists s pll', decode_mfm rd fuel pll deltas = Some (s, pll') /\ d_bits s = cells_of gaps.
Proof.
  intros rd big eps fuel pll cell gaps deltas R He HA HM HP HG Hn Hadj Hw HW Hf. apply within_abs in HW.
  assert (HM' : (cell * Qnat (list_sum gaps) + 10 * cell <= big)%Q) by lra.
  destruct (decode_mfm_ok rd big eps R fuel pll cell gaps deltas Hf HP Hw Hadj HW HG Hn He HA HM') as (s & E & B & _).
  exists s. eexists. split; [exact E|exact B].
Qed.
Lemma medium_count gaps : Forall (fun n => 2 <= n <= 4) gaps -> forall st,
  st_medium (fold_left (fun st n => count_flux n st) gaps st) = st_medium st + count_occ Nat.eq_dec gaps 3 /\
  st_total (fold_left (fun st n => count_flux n st) gaps st) = st_total st.
Proof.
  induction gaps as [|n gaps IH]; intros HG st; [cbn; split; [rewrite Nat.add_0_r|]; reflexivity|].
  pose proof (Forall_inv HG) as Hn. cbn beta in Hn. destruct (IH (Forall_inv_tail HG) (count_flux n st)) as [A B]. cbn [fold_left].
  rewrite A, B. assert (D : n = 2 \/ n = 3 \/ n = 4) by lia. destruct D as [-> | [-> | ->]]; cbn [count_flux st_medium st_total count_occ]; destruct (Nat.eq_dec _ _); try lia; split; lia.
Qed.
(* What is decoded goes to the track as MFM if at least 6% of the distances are 3 cells (below 5%, and without marks, FM is tried as well). *)
Theorem C61_decode_direct : forall rd big eps fuel pll cell gaps deltas,
  rounds rd big eps -> (0 <= eps)%Q -> ((Qnat (length gaps) + 20) * eps <= (5 # 100000) * cell)%Q -> (cell * (Qnat (list_sum gaps) + 10) <= big)%Q ->
  (0 < cell)%Q -> mfm_gaps gaps -> near cell ((7 # 100) * cell) gaps deltas ->
  pll_adj pll = c20 -> pll_work pll = pll_period pll -> (Qabs (pll_period pll - cell) <= (3 # 100) * cell)%Q -> 4 <= fuel ->
  (1 <= big)%Q -> (eps <= 1 # 1000)%Q -> gaps <> [] -> 6 * length gaps <= 100 * count_occ Nat.eq_dec gaps 3 ->
  decode_direct rd fuel pll deltas = Some (cells_of gaps, true).
Proof.
  intros rd big eps fuel pll cell gaps deltas R He HA HM HP HG Hn Hadj Hw HW Hf Hbig Heps Hne H3. apply within_abs in HW.
  assert (HM' : (cell * Qnat (list_sum gaps) + 10 * cell <= big)%Q) by lra.
  destruct (decode_mfm_ok rd big eps R fuel pll cell gaps deltas Hf HP Hw Hadj HW HG Hn He HA HM') as (s & E & B & C).
  unfold decode_direct. rewrite E.
  assert (L : looks_mfm rd (d_stats s) = true).
  { unfold looks_mfm. destruct (medium_count gaps HG (mkStats (length gaps) 0 0 0 0 0)) as [M1 M2]. rewrite C, M1, M2. cbn [st_medium st_total].
    destruct gaps as [|g gaps]; [congruence|]. change (match length (g :: gaps) with 0 => false | S _ => ?x end) with x. cbn [length]. rewrite Nat.add_0_l.
    set (m := count_occ Nat.eq_dec (g :: gaps) 3) in *. set (l := S (length gaps)) in *. cbn [length] in H3. fold l in H3.
    assert (Hml : m <= l) by apply count_occ_bound.
    assert (Hl : (0 < inject_Z (Z.of_nat l))%Q) by (change 0%Q with (inject_Z 0); rewrite <- Zlt_Qlt; unfold l; lia).
    assert (Q1 : ((6 # 100) <= inject_Z (Z.of_nat m) / inject_Z (Z.of_nat l))%Q).
    { apply Qle_shift_div_l; [exact Hl|]. assert (Z6 : (6 * Z.of_nat l <= 100 * Z.of_nat m)%Z) by lia. rewrite Zle_Qle, !inject_Z_mult in Z6. change (inject_Z 6) with 6%Q in Z6. change (inject_Z 100) with 100%Q in Z6. lra. }
    assert (Q2 : (inject_Z (Z.of_nat m) / inject_Z (Z.of_nat l) <= 1)%Q).
    { apply Qle_shift_div_r; [exact Hl|]. assert (Z1 : (Z.of_nat m <= Z.of_nat l)%Z) by lia. rewrite Zle_Qle in Z1. lra. }
    apply Qlt_bool_iff. pose proof (rounded rd big eps R (inject_Z (Z.of_nat m) / inject_Z (Z.of_nat l))) as R1. unfold within in R1. specialize (R1 ltac:(lra)). unfold c05. lra. }
  rewrite L, Bool.andb_false_r, B. reflexivity.
Qed.
(* The track made of such a revolution has exactly the recorded cells. *)
Theorem C61_track : forall rnd ch gaps t,
  bt_new rnd ch (to_bytes (cells_of gaps)) None (Some (length (cells_of gaps))) false = Ok t -> cells t = cells_of gaps.
Proof.
  intros rnd ch gaps t E. apply new_plain in E as [_ E].
  - rewrite E. apply to_bytes_first.
  - intros Z. f_equal. pose proof (to_bytes_first (cells_of gaps)) as F. rewrite Z in F. cbn [flat_map] in F. rewrite firstn_nil in F. rewrite <- F. reflexivity.
Qed.
(* Whatever the input, the clock stays within 20% of the one it was set to. *)
Theorem C61_clock_range : forall rd fuel pll deltas s pll', pll_work pll = pll_period pll ->
  let (lo, hi) := clock_limits rd (pll_period pll) (pll_adj pll) in
  (lo <= pll_period pll <= hi)%Q -> decode_mfm rd fuel pll deltas = Some (s, pll') -> (lo <= pll_work pll' <= hi)%Q /\ pll_period pll' = pll_period pll.
Proof.
  intros rd fuel pll deltas s pll' Hw. destruct (clock_limits rd (pll_period pll) (pll_adj pll)) as [lo hi] eqn:EL. intros H E.
  unfold decode_mfm in E. rewrite Hw, EL in E. destruct (mfm_loop _ _ _ _ _ _) as [s1|] eqn:E1; [|discriminate]. injection E as <- <-. cbn [pll_work pll_period].
  split; [|reflexivity].
  assert (G : forall ds st, (lo <= d_work st <= hi)%Q -> mfm_loop rd fuel lo hi ds st = Some s1 -> (lo <= d_work s1 <= hi)%Q).
  { induction ds as [|d ds IH]; intros st Hs Es; [injection Es as <-; exact Hs|]. cbn [mfm_loop] in Es. unfold mfm_step in Es.
    destruct (ticks _ _ _ _ _) as [[n t]|]; [|discriminate]. apply IH in Es; [exact Es|]. cbn [d_work].
    unfold Qclamp. destruct (Qlt_bool _ lo) eqn:A; [lra|]. destruct (Qlt_bool hi _) eqn:B; [lra|]. apply Qlt_bool_false in A, B. lra. }
  refine (G _ _ _ E1). exact H.
Qed.

(* One transition lengthens the period of the clock by at most 2.6% (exact arithmetic). *)
Definition same_but_stats (a b : Dec) : Prop :=
  d_time a = d_time b /\ d_last a = d_last b /\ d_perr a = d_perr b /\ d_padj a = d_padj b /\ d_gate a = d_gate b /\ d_work a = d_work b /\ d_bits a = d_bits b /\ d_reg a = d_reg b /\ d_marks a = d_marks b.
Lemma step_stats rd fuel lo hi a b d : same_but_stats a b ->
  match mfm_step rd fuel lo hi a d, mfm_step rd fuel lo hi b d with Some a', Some b' => same_but_stats a' b' | None, None => True | _, _ => False end.
Proof.
  intros (E1 & E2 & E3 & E4 & E5 & E6 & E7 & E8 & E9). unfold mfm_step. rewrite E1, E2, E3, E4, E5, E6, E7, E8, E9.
  destruct (ticks _ _ _ _ _) as [[n t]|]; [|exact I]. unfold same_but_stats. cbn [d_time d_last d_perr d_padj d_gate d_work d_bits d_reg d_marks]. auto 12.
Qed.
Lemma loop_stats rd fuel lo hi : forall ds a b, same_but_stats a b ->
  match mfm_loop rd fuel lo hi ds a, mfm_loop rd fuel lo hi ds b with Some a', Some b' => same_but_stats a' b' | None, None => True | _, _ => False end.
Proof.
  induction ds as [|d ds IH]; intros a b H; [exact H|]. cbn [mfm_loop]. pose proof (step_stats rd fuel lo hi a b d H) as G.
  destruct (mfm_step rd fuel lo hi a d), (mfm_step rd fuel lo hi b d); try contradiction; [apply IH; exact G|exact I].
Qed.
Lemma loop_app rd fuel lo hi : forall ds ds' a, mfm_loop rd fuel lo hi (ds ++ ds') a = match mfm_loop rd fuel lo hi ds a with Some b => mfm_loop rd fuel lo hi ds' b | None => None end.
Proof. induction ds as [|d ds IH]; intros ds' a; [reflexivity|]. cbn [app mfm_loop]. destruct (mfm_step rd fuel lo hi a d); [apply IH|reflexivity]. Qed.
Lemma ticks_past : forall fuel t target w n t', ticks (fun x => x) fuel t target w = Some (n, t') -> (target <= t')%Q.
Proof.
  induction fuel as [|fuel IH]; intros t target w n t' E; cbn [ticks] in E; destruct (Qlt_bool t target) eqn:Q; try discriminate.
  - injection E as _ <-. apply Qlt_bool_false. exact Q.
  - destruct (ticks _ fuel _ target w) as [[k u]|] eqn:E1; [|discriminate]. injection E as _ <-. exact (IH _ _ _ _ _ E1).
  - injection E as _ <-. apply Qlt_bool_false. exact Q.
Qed.
Theorem C61_clock_step : forall fuel pll deltas d s1 s2 pll1 pll2, (0 < pll_period pll)%Q -> pll_work pll = pll_period pll -> (0 <= pll_adj pll <= 1)%Q ->
  decode_mfm (fun x => x) fuel pll deltas = Some (s1, pll1) -> decode_mfm (fun x => x) fuel pll (deltas ++ [d]) = Some (s2, pll2) ->
  (pll_work pll2 <= (1026 # 1000) * pll_work pll1)%Q.
Proof.
  intros fuel pll deltas d s1 s2 pll1 pll2 Hp Hw Ha E1 E2. pose proof (C61_clock_range (fun x => x) fuel pll deltas s1 pll1 Hw) as R.
  destruct (clock_limits (fun x => x) (pll_period pll) (pll_adj pll)) as [lo hi] eqn:EL. assert (EL' := EL). unfold clock_limits in EL'. injection EL' as El Eh.
  assert (H0 : (0 <= pll_period pll * pll_adj pll <= pll_period pll)%Q) by (split; nra).
  destruct (R ltac:(subst lo hi; split; lra) E1) as [[R1 R2] _]. clear R. unfold decode_mfm in E1, E2. rewrite Hw, EL in E1, E2.
  destruct (mfm_loop _ _ _ _ deltas _) as [x1|] eqn:L1; [|discriminate]. injection E1 as <- <-. cbn [pll_work] in *.
  rewrite loop_app in E2. pose proof (loop_stats (fun x => x) fuel lo hi deltas (mfm_start (fun x => x) pll (length deltas)) (mfm_start (fun x => x) pll (length (deltas ++ [d])))) as G.
  rewrite L1 in G. specialize (G ltac:(unfold same_but_stats; cbn; auto 12)). destruct (mfm_loop _ _ _ _ deltas (mfm_start _ pll (length (deltas ++ [d])))) as [x2|]; [|contradiction].
  destruct G as (_ & _ & _ & _ & _ & Ew & _). cbn [mfm_loop] in E2. destruct (mfm_step (fun x => x) fuel lo hi x2 d) as [x3|] eqn:E3; [|discriminate]. injection E2 as <- <-. cbn [pll_work].
  unfold mfm_step in E3. destruct (ticks _ _ _ _ _) as [[n t]|] eqn:Et; [|discriminate]. injection E3 as <-. cbn [d_work]. rewrite <- Ew. apply ticks_past in Et.
  set (perr := (d - _)%Q). assert (Hperr : (perr <= d_work x1 / 2)%Q) by (unfold perr; lra). clearbody perr.
  assert (Hc : (0 < c05 /\ c05 <= 51 # 1000)%Q) by (split; [reflexivity|vm_compute; discriminate]).
  set (g := (1 <? _)%Z). clearbody g. assert (Hl : (0 <= lo)%Q) by (subst lo; lra).
  assert (Hup : (d_work x1 + (if g then c05 * perr else 0) <= (1026 # 1000) * d_work x1)%Q).
  { destruct g; [|lra]. assert ((c05 * perr <= c05 * (d_work x1 / 2))%Q) by (rewrite !(Qmult_comm c05); apply Qmult_le_compat_r; [exact Hperr|lra]).
    assert ((c05 * (d_work x1 / 2) <= (51 # 1000) * (d_work x1 / 2))%Q) by (apply Qmult_le_compat_r; [exact (proj2 Hc)|clear - R1 Hl; apply Qle_shift_div_l; [reflexivity|lra]]). generalize dependent (c05 * perr)%Q. generalize dependent (c05 * (d_work x1 / 2))%Q. clear - R1 Hl. intros u A v B. assert (E2 : (d_work x1 / 2 == (1 # 2) * d_work x1)%Q) by (unfold Qdiv; rewrite Qmult_comm; apply Qmult_comp; reflexivity). rewrite E2 in A. lra. }
  unfold Qclamp. destruct (Qlt_bool _ lo); [clear - R1 Hl; lra|]. destruct (Qlt_bool hi _) eqn:B; [|exact Hup]. apply Qlt_bool_iff in B. clear - B Hup. eapply Qle_trans; [apply Qlt_le_weak; exact B|exact Hup].
Qed.

(* ---- C62 ---- *)
Lemma ones_emit n : ones (emit n) = if n =? 0 then 0 else 1.
Proof.
  destruct n as [|n]; [reflexivity|]. unfold ones. cbn [emit Nat.eqb]. rewrite filter_app, app_length. cbn.
  assert (G : filter (fun b : bool => b) (repeat false n) = []) by (induction n; cbn; auto). rewrite G. reflexivity.
Qed.
Lemma loop_emits rd fuel lo hi : forall deltas s s', mfm_loop rd fuel lo hi deltas s = Some s' ->
  exists ns, length ns = length deltas /\ d_bits s' = d_bits s ++ flat_map emit ns.
Proof.
  induction deltas as [|d ds IH]; intros s s' E; [injection E as <-; exists []; split; [reflexivity|rewrite app_nil_r; reflexivity]|].
  cbn [mfm_loop] in E. destruct (mfm_step _ _ _ _ _ _) as [s1|] eqn:E1; [|discriminate]. destruct (IH _ _ E) as (ns & L & B).
  unfold mfm_step in E1. destruct (ticks _ _ _ _ _) as [[n t]|]; [|discriminate]. injection E1 as <-. cbn [d_bits] in B.
  exists (n :: ns). split; [cbn; f_equal; exact L|]. rewrite B, <- app_assoc. reflexivity.
Qed.
(* Whatever the input: at most one 1 cell per transition, none in between, and the stream ends with one. *)
Theorem C62_cells : forall rd fuel pll deltas s pll', decode_mfm rd fuel pll deltas = Some (s, pll') ->
  exists ns, length ns = length deltas /\ d_bits s = flat_map emit ns /\ ones (d_bits s) <= length deltas /\ (d_bits s = [] \/ exists l, d_bits s = l ++ [true]).
Proof.
  intros rd fuel pll deltas s pll' E. unfold decode_mfm in E. destruct (clock_limits _ _ _) as [lo hi]. destruct (mfm_loop _ _ _ _ _ _) as [s1|] eqn:E1; [|discriminate].
  injection E as <- <-. destruct (loop_emits _ _ _ _ _ _ _ E1) as (ns & L & B). cbn [mfm_start d_bits app] in B. exists ns. split; [exact L|]. split; [exact B|]. rewrite B, <- L. clear.
  induction ns as [|n ns IH]; [split; [apply le_n|left; reflexivity]|]. destruct IH as [I1 I2]. cbn [flat_map length]. split.
  - unfold ones in *. rewrite filter_app, app_length. fold (ones (emit n)). rewrite ones_emit. destruct (n =? 0); lia.
  - destruct I2 as [-> | [l ->]]; [|right; exists (emit n ++ l); apply app_assoc]. rewrite app_nil_r. destruct n; [left; reflexivity|right; exists (repeat false n); reflexivity].
Qed.
Lemma shift_val : forall bits pre, shift_in (bits_val pre mod 2 ^ 64)%N bits = (bits_val (pre ++ bits) mod 2 ^ 64)%N.
Proof.
  induction bits as [|b bits IH]; intros pre; [rewrite app_nil_r; reflexivity|]. unfold shift_in. cbn [fold_left].
  replace (pre ++ b :: bits) with ((pre ++ [b]) ++ bits) by (rewrite <- app_assoc; reflexivity). rewrite <- IH. unfold shift_in. f_equal.
  rewrite bits_val_app. cbn [length]. change (2 ^ N.of_nat 1)%N with 2%N. change (2 ^ 64)%N with (2 * 2 ^ 63)%N.
  assert (Hb : bits_val [b] = b2N b) by (destruct b; reflexivity). rewrite Hb. set (v := bits_val pre). clearbody v. clear.
  assert (b2N b < 2)%N by (destruct b; reflexivity). set (c := b2N b) in *. clearbody c.
  set (M := (2 ^ 63)%N). assert (M <> 0)%N by (unfold M; discriminate). clearbody M.
  assert (E1 : ((v mod (2 * M)) mod M = v mod M)%N).
  { rewrite (N.mul_comm 2 M), N.mod_mul_r by lia. rewrite N.mul_comm, N.mod_add by assumption. apply N.mod_mod. assumption. }
  rewrite E1. apply (N.mod_unique _ _ (v / M)%N).
  - pose proof (N.mod_upper_bound v M ltac:(assumption)). lia.
  - pose proof (N.div_mod v M ltac:(assumption)) as D. set (q := (v / M)%N) in *. set (r := (v mod M)%N) in *. clearbody q r. nia.
Qed.

Lemma pattern_val bits : mfm_pattern (bits_val bits mod 2 ^ 64)%N = true <-> (bits_val bits mod 2 ^ 63 = 0x2AAAAAAA44894489)%N.
Proof.
  unfold mfm_pattern. rewrite N.eqb_eq. change (2 ^ 64)%N with (2 ^ 63 * 2)%N.
  rewrite N.mod_mul_r by discriminate. rewrite N.mul_comm, N.mod_add, N.mod_mod by discriminate. reflexivity.
Qed.
(* the last cell of a match is a 1 *)
Lemma pattern_last bits e : sync_ends_at bits e -> exists e', e = S e' /\ nth_error bits e' = Some true.
Proof.
  intros [L V]. destruct e as [|e]; [cbn in V; discriminate|]. exists e. split; [reflexivity|].
  destruct (nth_error bits e) as [b|] eqn:E; [|apply nth_error_None in E; lia].
  assert (F : firstn (S e) bits = firstn e bits ++ [b]).
  { clear - E. revert e E. induction bits as [|x bits IH]; intros [|e] E; cbn in *; try discriminate; [injection E as ->; reflexivity|]. f_equal. apply IH. exact E. }
  rewrite F, bits_val_app in V. cbn [length] in V. change (2 ^ N.of_nat 1)%N with 2%N in V.
  destruct b; [reflexivity|]. exfalso. change (bits_val [false]) with 0%N in V. rewrite N.add_0_r in V. change (2 ^ 63)%N with (2 ^ 62 * 2)%N in V. rewrite N.mul_mod_distr_r in V by discriminate.
  set (w := (bits_val (firstn e bits) mod 2 ^ 62)%N) in V. clearbody w. lia.
Qed.
Lemma long_enough bits e : sync_ends_at bits e -> 62 <= e.
Proof.
  intros [L V]. apply Nat.nlt_ge. intros H. pose proof (bits_val_lt (firstn e bits)) as B. rewrite firstn_length_le in B by exact L.
  assert (P : (2 ^ N.of_nat e <= 2 ^ 61)%N) by (apply N.pow_le_mono_r; lia).
  assert (P2 : (2 ^ 61 < 0x2AAAAAAA44894489)%N) by reflexivity.
  rewrite N.mod_small in V by (assert (2 ^ 61 < 2 ^ 63)%N by reflexivity; lia). lia.
Qed.
Lemma one_at_end n e : nth_error (emit n) e = Some true -> S e = n.
Proof.
  destruct n as [|n]; [destruct e; discriminate|]. cbn [emit]. intros H. destruct (Nat.lt_trichotomy e n) as [A|[A|A]]; [|lia|].
  - rewrite nth_error_app1 in H by (rewrite repeat_length; exact A). rewrite nth_error_repeat in H by exact A. discriminate.
  - rewrite (proj2 (nth_error_None _ _)) in H by (rewrite app_length, repeat_length; cbn; lia). discriminate.
Qed.
Lemma emit_length n : length (emit n) = n.
Proof. destruct n; [reflexivity|]. cbn [emit]. rewrite app_length, repeat_length. cbn. lia. Qed.
Definition marked (s : Dec) : Prop :=
  d_reg s = (bits_val (d_bits s) mod 2 ^ 64)%N /\ forall b, (exists t, In (t, b) (d_marks s)) <-> sync_ends_at (d_bits s) (b + 32).
Lemma marked_step rd fuel lo hi s d s' : marked s -> mfm_step rd fuel lo hi s d = Some s' -> marked s'.
Proof.
  intros [HR HM] E. unfold mfm_step in E. destruct (ticks _ _ _ _ _) as [[n t]|]; [|discriminate]. injection E as <-. unfold marked. cbn [d_reg d_bits d_marks].
  rewrite HR, shift_val. split; [reflexivity|]. set (bits := d_bits s ++ emit n). intros b.
  assert (Hnew : forall e, sync_ends_at bits e <-> sync_ends_at (d_bits s) e \/ e = length bits /\ n <> 0 /\ (bits_val bits mod 2 ^ 63 = 0x2AAAAAAA44894489)%N).
  { intros e. split.
    - intros H. destruct (Nat.le_gt_cases e (length (d_bits s))) as [A|A].
      + left. destruct H as [_ V]. split; [exact A|]. unfold bits in V. rewrite firstn_app in V. replace (e - length (d_bits s)) with 0 in V by lia. rewrite firstn_O, app_nil_r in V. exact V.
      + right. pose proof (pattern_last _ _ H) as (e' & -> & N1). unfold bits in N1. rewrite nth_error_app2 in N1 by lia. apply one_at_end in N1.
        assert (Ee : S e' = length bits) by (unfold bits; rewrite app_length, emit_length; lia). split; [exact Ee|]. split; [lia|].
        destruct H as [_ V]. rewrite Ee, firstn_all in V. exact V.
    - intros [[A V]|(-> & _ & V)].
      + split; [unfold bits; rewrite app_length; lia|]. unfold bits. rewrite firstn_app. replace (e - length (d_bits s)) with 0 by lia. rewrite firstn_O, app_nil_r. exact V.
      + split; [apply le_n|]. rewrite firstn_all. exact V. }
  rewrite Hnew, <- HM. destruct (mfm_pattern _) eqn:Pt.
  - apply pattern_val in Pt. fold bits in Pt. assert (Hl : 62 <= length bits) by (apply (long_enough bits); split; [apply le_n|rewrite firstn_all; exact Pt]).
    split.
    + intros [t0 H]. apply in_app_or in H as [H|[H|[]]]; [left; exists t0; exact H|]. injection H as _ <-.
      destruct n as [|n].
      * left. apply HM. unfold bits in *. cbn [emit] in *. rewrite app_nil_r in *. replace (length (d_bits s) - 32 + 32) with (length (d_bits s)) by lia. split; [apply le_n|]. rewrite firstn_all. exact Pt.
      * right. split; [lia|]. split; [discriminate|exact Pt].
    + intros [[t0 H]|(H & _ & _)]; [exists t0; apply in_or_app; left; exact H|]. exists t. apply in_or_app. right. left. f_equal. lia.
  - split; [intros H; left; exact H|]. intros [H|(_ & _ & H)]; [exact H|]. apply pattern_val in H. congruence.
Qed.
(* The markers reported are exactly the places where sync zeros and two A1 marks (with missing clock) have been decoded. *)
Theorem C62_markers : forall rd fuel pll deltas s pll', decode_mfm rd fuel pll deltas = Some (s, pll') ->
  forall b, (exists t, In (t, b) (d_marks s)) <-> sync_ends_at (d_bits s) (b + 32).
Proof.
  intros rd fuel pll deltas s pll' E. unfold decode_mfm in E. destruct (clock_limits _ _ _) as [lo hi]. destruct (mfm_loop _ _ _ _ _ _) as [s1|] eqn:E1; [|discriminate].
  injection E as <- <-.
  assert (G : forall ds st, marked st -> mfm_loop rd fuel lo hi ds st = Some s1 -> marked s1).
  { induction ds as [|d ds IH]; intros st Hs Es; [injection Es as <-; exact Hs|]. cbn [mfm_loop] in Es. destruct (mfm_step _ _ _ _ _ _) as [s2|] eqn:E2; [|discriminate].
    exact (IH s2 (marked_step _ _ _ _ _ _ _ Hs E2) Es). }
  refine (proj2 (G _ _ _ E1)). split; [reflexivity|]. intros b. split; [intros [t []]|]. intros [H _]. cbn in H. lia.
Qed.
Lemma some_inj {A} (a b : A) : Some a = Some b -> a = b. Proof. congruence. Qed.
(* ---- FM: the same for decode_fm ---- *)
Lemma fm_emits rd fuel lo hi g : forall deltas s s', fm_loop rd fuel lo hi g deltas s = Some s' ->
  exists ns, length ns = length deltas /\ f_bits s' = f_bits s ++ flat_map emit ns.
Proof.
  induction deltas as [|d ds IH]; intros s s' E; [injection E as <-; exists []; split; [reflexivity|rewrite app_nil_r; reflexivity]|].
  cbn [fm_loop] in E. destruct (fm_step _ _ _ _ _ _ _) as [s1|] eqn:E1; [|discriminate]. destruct (IH _ _ E) as (ns & L & B).
  unfold fm_step in E1. destruct (fticks _ _ _ _ _ _) as [[n t]|]; [|discriminate].
  apply (f_equal (option_map f_bits)) in E1. cbn [option_map f_bits] in E1. apply some_inj in E1. rewrite <- E1 in B.
  exists (n :: ns). split; [cbn; f_equal; exact L|]. rewrite B, <- app_assoc. reflexivity.
Qed.

Theorem C62_fm_cells : forall rd fuel pll deltas s, decode_fm rd fuel pll deltas = Some s ->
  (exists ns, length ns = length deltas /\ f_bits s = flat_map emit ns) /\
  let (lo, hi) := clock_limits rd (rd (pll_period pll * 2)%Q) (pll_adj pll) in
  (lo <= rd (pll_period pll * 2) <= hi)%Q -> (lo <= f_work s <= hi)%Q.
Proof.
  intros rd fuel pll deltas s E. unfold decode_fm in E. destruct (clock_limits _ _ _) as [lo hi]. split.
  - destruct (fm_emits _ _ _ _ _ _ _ _ E) as (ns & L & B). exists ns. split; [exact L|exact B].
  - intros H.
    assert (G : forall ds st, (lo <= f_work st <= hi)%Q -> fm_loop rd fuel lo hi (pll_gain pll) ds st = Some s -> (lo <= f_work s <= hi)%Q).
    { clear E. induction ds as [|d ds IH]; intros st Hs Es; [injection Es as <-; exact Hs|]. cbn [fm_loop] in Es.
      destruct (fm_step _ _ _ _ _ _ _) as [s1|] eqn:E1; [|discriminate]. apply IH in Es; [exact Es|]. unfold fm_step in E1.
      destruct (fticks _ _ _ _ _ _) as [[n t]|]; [|discriminate].
      apply (f_equal (option_map f_work)) in E1. cbn [option_map f_work] in E1. apply some_inj in E1. rewrite <- E1.
      unfold Qclamp. destruct (Qlt_bool _ lo) eqn:A; [lra|]. destruct (Qlt_bool hi _) eqn:B; [lra|]. apply Qlt_bool_false in A, B. lra. }
    refine (G _ _ _ E). exact H.
Qed.
(* The FM markers: exactly the places where the 64 cells before have the clock cells (every other cell, starting with the first) of FM sync
   zeros with the marks' missing clocks, AAAA AAAA AAAA A02A, reported 16 cells before. *)
Definition fm_marked (s : FDec) : Prop :=
  f_reg s = (bits_val (f_bits s) mod 2 ^ 64)%N /\ forall b, (exists t, In (t, b) (f_marks s)) -> exists e, e <= length (f_bits s) /\ b = e - 16 /\
    N.land (bits_val (firstn e (f_bits s)) mod 2 ^ 64) 0xAAAAAAAAAAAAAAAA = 0xAAAAAAAAAAAAA02A%N.
Lemma fm_marked_step rd fuel lo hi g s d s' : fm_marked s -> fm_step rd fuel lo hi g s d = Some s' -> fm_marked s'.
Proof.
  intros [HR HM] E. unfold fm_step in E. destruct (fticks _ _ _ _ _ _) as [[n t]|]; [|discriminate]. cbv zeta in E.
  pose proof (f_equal (option_map f_bits) E) as Eb. pose proof (f_equal (option_map f_reg) E) as Er. pose proof (f_equal (option_map f_marks) E) as Em. clear E.
  cbn [option_map f_bits f_reg f_marks] in Eb, Er, Em. apply some_inj in Eb, Er, Em. rewrite HR, shift_val in Er, Em. unfold fm_marked. rewrite <- Er, <- Eb.
  split; [reflexivity|]. intros b [t0 H]. rewrite <- Em in H. clear Em Er Eb.
  assert (Old : In (t0, b) (f_marks s) -> exists e, e <= length (f_bits s ++ emit n) /\ b = e - 16 /\ N.land (bits_val (firstn e (f_bits s ++ emit n)) mod 2 ^ 64) 0xAAAAAAAAAAAAAAAA = 0xAAAAAAAAAAAAA02A%N).
  { intros I. destruct (HM b (ex_intro _ t0 I)) as (e & A & B & C). exists e. split; [rewrite app_length; lia|]. split; [exact B|].
    rewrite firstn_app. replace (e - length (f_bits s)) with 0 by lia. rewrite firstn_O, app_nil_r. exact C. }
  destruct (fm_pattern _) eqn:Pt; [|exact (Old H)]. apply in_app_or in H as [H|[H|[]]]; [exact (Old H)|]. injection H as _ <-.
  exists (length (f_bits s ++ emit n)). split; [apply le_n|]. split; [reflexivity|]. rewrite firstn_all. unfold fm_pattern in Pt. apply N.eqb_eq in Pt. exact Pt.
Qed.
Theorem C62_fm_markers : forall rd fuel pll deltas s, decode_fm rd fuel pll deltas = Some s -> forall b, (exists t, In (t, b) (f_marks s)) ->
  exists e, e <= length (f_bits s) /\ b = e - 16 /\ N.land (bits_val (firstn e (f_bits s)) mod 2 ^ 64) 0xAAAAAAAAAAAAAAAA = 0xAAAAAAAAAAAAA02A%N.
Proof.
  intros rd fuel pll deltas s E. unfold decode_fm in E. destruct (clock_limits _ _ _) as [lo hi].
  assert (G : forall ds st, fm_marked st -> fm_loop rd fuel lo hi (pll_gain pll) ds st = Some s -> fm_marked s).
  { clear E. induction ds as [|d ds IH]; intros st Hs Es; [injection Es as <-; exact Hs|]. cbn [fm_loop] in Es.
    destruct (fm_step _ _ _ _ _ _ _) as [s1|] eqn:E1; [|discriminate]. exact (IH s1 (fm_marked_step _ _ _ _ _ _ _ _ Hs E1) Es). }
  refine (proj2 (G _ _ _ E)). split; [reflexivity|]. intros b [t []].
Qed.
(* A revolution is taken as FM only when MFM decoding found no mark, few distances of 3 cells, and FM decoding found one. *)
Theorem C62_choice : forall rd fuel pll deltas bits mfm, decode_direct rd fuel pll deltas = Some (bits, mfm) ->
  exists s pll', decode_mfm rd fuel pll deltas = Some (s, pll') /\
    if mfm then bits = d_bits s
    else d_marks s = [] /\ looks_mfm rd (d_stats s) = false /\ exists f, decode_fm rd fuel pll' deltas = Some f /\ f_marks f <> [] /\ bits = f_bits f.
Proof.
  intros rd fuel pll deltas bits mfm E. unfold decode_direct in E. destruct (decode_mfm _ _ _ _) as [[s pll']|] eqn:E1; [|discriminate].
  exists s, pll'. split; [reflexivity|]. destruct (_ && _) eqn:C.
  - apply Bool.andb_true_iff in C as [C1 C2]. apply Bool.negb_true_iff in C2. destruct (d_marks s) eqn:M; [|discriminate].
    destruct (decode_fm _ _ _ _) as [f|] eqn:E2; [|discriminate]. destruct (f_marks f) eqn:Mf; injection E as <- <-; [reflexivity|].
    split; [reflexivity|]. split; [exact C2|]. exists f. split; [reflexivity|]. split; [rewrite Mf; discriminate|reflexivity].
  - injection E as <- <-. reflexivity.
Qed.
(* A phase error of a thousandth of a clock period already moves the FM clock to one of its limits: the correction is added in seconds
   although it is a ratio. *)
Theorem C62_fm_clock_saturates : forall fuel lo hi s delta s', fm_step Qred fuel lo hi c65 s delta = Some s' ->
  (0 < lo)%Q -> (lo <= f_work s <= hi)%Q -> (hi <= 1 # 10000)%Q ->
  (f_work s / 1000 <= Qabs (delta - Qnat (length (f_bits s') - length (f_bits s)) * f_work s))%Q -> f_work s' = lo \/ f_work s' = hi.
Proof.
  intros fuel lo hi s delta s' E H0 Hw Hh Hp. unfold fm_step in E. destruct (fticks _ _ _ _ _ _) as [[n t]|]; [|discriminate].
  assert (Eb : f_bits s' = f_bits s ++ emit n) by (apply (f_equal (option_map f_bits)) in E; cbn [option_map f_bits] in E; apply some_inj in E; symmetry; exact E).
  apply (f_equal (option_map f_work)) in E. cbn [option_map f_work] in E. apply some_inj in E.
  rewrite Eb, app_length, emit_length in Hp. replace (length (f_bits s) + n - length (f_bits s)) with n in Hp by lia. unfold Qnat in Hp. rewrite <- E. clear Eb E.
  set (w := f_work s) in *. set (last := f_last s) in *. set (k := inject_Z (Z.of_nat n)) in *. clearbody w last k.
  pose proof (Qred_correct (last + delta)) as R1. set (r1 := Qred (last + delta)) in *. clearbody r1.
  pose proof (Qred_correct (k * w)) as R2. set (r2 := Qred (k * w)) in *. clearbody r2.
  pose proof (Qred_correct (last + r2)) as R3. set (r3 := Qred (last + r2)) in *. clearbody r3.
  pose proof (Qred_correct (r1 - r3)) as R4. set (r4 := Qred (r1 - r3)) in *. clearbody r4.
  pose proof (Qred_correct (c65 * r4)) as R5. set (r5 := Qred (c65 * r4)) in *. clearbody r5.
  pose proof (Qred_correct (r5 / w)) as R6. set (r6 := Qred (r5 / w)) in *. clearbody r6.
  pose proof (Qred_correct (w + r6)) as R7. set (v := Qred (w + r6)) in *. clearbody v.
  assert (Hpos : (0 < w)%Q) by lra. assert (Hp' : (w / 1000 == (1 # 1000) * w)%Q) by field.
  assert (C : (v < lo \/ hi < v)%Q).
  { revert Hp. apply Qabs_case; intros S1 S2.
    - right. assert (G : ((64 # 100000) <= r5 / w)%Q) by (apply Qle_shift_div_l; [exact Hpos|]; unfold c65 in R5; lra). lra.
    - left. assert (G : (r5 / w <= - (64 # 100000))%Q) by (apply Qle_shift_div_r; [exact Hpos|]; unfold c65 in R5; lra). lra. }
  unfold Qclamp. destruct (Qlt_bool v lo) eqn:A; [left; reflexivity|]. destruct (Qlt_bool hi v) eqn:B; [right; reflexivity|].
  apply Qlt_bool_false in A, B. exfalso. destruct C; lra.
Qed.
(* A perfect FM stream - transitions exactly 1 or 2 FM cells apart, the clock exactly right, exact arithmetic - is not decoded to its cells:
   the window is half a cell late from the start. *)
Definition fm_pll : Pll := mkPll (2 # 1000000) (2 # 1000000) c20 c65.
Definition fm_ideal (gaps : list nat) : list Q := map (fun n => Qnat n * (4 # 1000000))%Q gaps.
Theorem C62_fm_refuted : ~ (forall gaps, Forall (fun n => 1 <= n <= 2) gaps ->
  exists s, decode_fm Qred 10 fm_pll (fm_ideal gaps) = Some s /\ f_bits s = cells_of gaps).
Proof.
  intros H. destruct (H [1; 1; 2; 1; 2] ltac:(repeat constructor)) as (s & E & B).
  assert (G : option_map f_bits (decode_fm Qred 10 fm_pll (fm_ideal [1; 1; 2; 1; 2])) = Some [false; true; true; false; true; true; false; true]) by (vm_compute; reflexivity).
  rewrite E in G. cbn [option_map] in G. rewrite B in G. vm_compute in G. discriminate G.
Qed.

(* ---- an instance: numbers rounded down to multiples of 2^-60, cells of 2 microseconds, a clock 1% slow, transitions up to 0.14 us off ---- *)
Definition grid_rd (x : Q) : Q := (Qfloor (x * (Zpos (2 ^ 60)%positive # 1)) # 2 ^ 60).
Lemma grid_rounds big : rounds grid_rd big (1 # 2 ^ 60).
Proof.
  intros x _. unfold grid_rd. set (k := (2 ^ 60)%positive). set (y := (x * (Zpos k # 1))%Q).
  pose proof (Qfloor_le y) as A. pose proof (Qlt_floor y) as B. set (z := Qfloor y) in *. rewrite inject_Z_plus in B. change (inject_Z 1) with 1%Q in B.
  assert (E : (z # k == inject_Z z * (1 # k))%Q) by (unfold Qeq, inject_Z; cbn [Qnum Qden Qmult]; lia).
  assert (K : (y * (1 # k) == x)%Q) by (unfold y; rewrite <- Qmult_assoc; assert (T : ((Zpos k # 1) * (1 # k) == 1)%Q) by (unfold Qeq; cbn [Qnum Qden Qmult]; lia); rewrite T; ring).
  assert (Kp : (0 < 1 # k)%Q) by reflexivity. clearbody z y.
  set (e := (1 # k)%Q) in *. set (r := (z # k)%Q) in *. clearbody e r.
  assert (G1 : ((y - inject_Z z) * e <= 1 * e)%Q) by (apply Qmult_le_compat_r; lra).
  assert (G2 : (0 <= (y - inject_Z z) * e)%Q) by (apply Qmult_le_0_compat; lra).
  assert (G3 : ((y - inject_Z z) * e == y * e - inject_Z z * e)%Q) by ring.
  apply Qabs_Qle_condition. split; lra.
Qed.
Definition ex_gaps : list nat := [2; 3; 4; 2; 2; 3; 4; 3].
Definition ex_deltas : list Q := map (fun z => z # 10000000)%Q [41; 58; 82; 38; 41; 61; 79; 60]%Z.
Definition ex_pll : Pll := mkPll (202 # 100000000) (202 # 100000000) c20 c65.
Lemma C61_example_near : near (2 # 1000000) ((7 # 100) * (2 # 1000000)) ex_gaps ex_deltas.
Proof.
  split; [reflexivity|]. intros k Hk. cbn [ex_gaps length] in Hk.
  do 9 (destruct k as [|k]; [apply Qle_bool_iff; vm_compute; reflexivity|]). exfalso. lia.
Qed.
Example C61_example : exists s pll', decode_mfm grid_rd 4 ex_pll ex_deltas = Some (s, pll') /\ d_bits s = cells_of ex_gaps.
Proof.
  apply (C61_mfm_decode grid_rd 1 (1 # 2 ^ 60) 4 ex_pll (2 # 1000000) ex_gaps ex_deltas (grid_rounds 1)); try reflexivity.
  - apply Qle_bool_iff. vm_compute. reflexivity.
  - apply Qle_bool_iff. vm_compute. reflexivity.
  - apply Qle_bool_iff. vm_compute. reflexivity.
  - repeat constructor.
  - exact C61_example_near.
  - apply Qle_bool_iff. vm_compute. reflexivity.
Qed.

(* ---- C63 ---- *)
(* Synthetic revolutions are appended for each pair of neighbours whose lengths differ by exactly two: the pair with the border between them
   moved by one transition, so that both have the same length; index times are kept. *)
Definition shifted {A B} (a b a' b' : list A * B) : Prop :=
  fst a' ++ fst b' = fst a ++ fst b /\ length (fst a') = length (fst b') /\ snd a' = snd a /\ snd b' = snd b.
Lemma pair_spec {A B} (a b : list A * B) :
  (exists a' b', adjacent_pair a b = [a'; b'] /\ shifted a b a' b') \/
  (adjacent_pair a b = [] /\ length (fst a) <> length (fst b) + 2 /\ length (fst b) <> length (fst a) + 2).
Proof.
  unfold adjacent_pair. destruct (Nat.eqb_spec (length (fst a)) (length (fst b) + 2)) as [E|E].
  - destruct (rev (fst a)) as [|x r] eqn:Er.
    + apply (f_equal (@length A)) in Er. rewrite rev_length in Er. cbn in Er. lia.
    + left. do 2 eexists. split; [reflexivity|]. unfold shifted. cbn [fst snd]. assert (Ea : fst a = rev r ++ [x]) by (rewrite <- (rev_involutive (fst a)), Er; reflexivity).
      rewrite Ea in *. rewrite app_length in E. cbn [length] in E. split; [rewrite <- app_assoc; reflexivity|]. split; [cbn [length]; lia|]. split; reflexivity.
  - destruct (Nat.eqb_spec (length (fst b)) (length (fst a) + 2)) as [E2|E2]; [|right; split; [reflexivity|split; assumption]].
    destruct (fst b) as [|x r] eqn:Er; [cbn in E2; lia|]. left. do 2 eexists. split; [reflexivity|]. unfold shifted. cbn [fst snd]. rewrite Er. cbn [length] in E2.
    split; [rewrite <- app_assoc; reflexivity|]. split; [rewrite app_length; cbn [length]; lia|]. split; reflexivity.
Qed.
Theorem C63_synthesize : forall {A B} (revs : list (list A * B)),
  exists groups, synthesize revs = revs ++ concat groups /\ length groups = length revs - 1 /\
    forall i a b, nth_error revs i = Some a -> nth_error revs (i + 1) = Some b -> exists g, nth_error groups i = Some g /\
      (if (length (fst a) =? length (fst b) + 2) || (length (fst b) =? length (fst a) + 2)
       then exists a' b', g = [a'; b'] /\ shifted a b a' b' else g = []).
Proof.
  intros A B revs. unfold synthesize.
  assert (G : exists groups, synthesized revs = concat groups /\ length groups = length revs - 1 /\
    forall i a b, nth_error revs i = Some a -> nth_error revs (i + 1) = Some b -> exists g, nth_error groups i = Some g /\
      (if (length (fst a) =? length (fst b) + 2) || (length (fst b) =? length (fst a) + 2)
       then exists a' b', g = [a'; b'] /\ shifted a b a' b' else g = [])).
  { induction revs as [|a revs IH]; [exists []; split; [reflexivity|split; [reflexivity|intros [|i] ? ?; discriminate]]|].
    destruct revs as [|b revs]; [exists []; split; [reflexivity|split; [reflexivity|intros [|i] x y H1 H2; cbn in H2; [discriminate|destruct i; discriminate]]]|].
    destruct IH as (gs & E & L & P). exists (adjacent_pair a b :: gs). split; [cbn [synthesized concat]; f_equal; exact E|]. split; [cbn [length] in *; lia|].
    intros [|i] x y H1 H2.
    - cbn in H1, H2. injection H1 as <-. injection H2 as <-. exists (adjacent_pair a b). split; [reflexivity|].
      destruct (pair_spec a b) as [(a' & b' & E1 & S1)|(E1 & N1 & N2)].
      + destruct (_ || _) eqn:D; [exists a', b'; split; assumption|]. exfalso. apply Bool.orb_false_iff in D as [D1 D2]. unfold adjacent_pair in E1. rewrite D1, D2 in E1. discriminate.
      + apply Nat.eqb_neq in N1, N2. rewrite N1, N2. exact E1.
    - cbn [nth_error Nat.add] in H1, H2. apply (P i x y H1 H2). }
  destruct G as (gs & E & L & P). exists gs. rewrite E. split; [reflexivity|]. split; assumption.
Qed.
Example C63_example : synthesize [([1; 2; 3; 4], 10); ([5; 6], 11); ([7; 8; 9; 10], 12)]%nat =
  [([1; 2; 3; 4], 10); ([5; 6], 11); ([7; 8; 9; 10], 12); ([1; 2; 3], 10); ([4; 5; 6], 11); ([5; 6; 7], 11); ([8; 9; 10], 12)]%nat.
Proof. reflexivity. Qed.

Print Assumptions C61_mfm_decode.
Print Assumptions C61_decode_direct.
Print Assumptions C61_track.
Print Assumptions C61_clock_range.
Print Assumptions C62_cells.
Print Assumptions C62_markers.
Print Assumptions C62_fm_clock_saturates.
Print Assumptions C62_fm_refuted.
Print Assumptions C63_synthesize.

Print Assumptions C62_fm_cells.
Print Assumptions C62_fm_markers.
Print Assumptions C62_choice.

Print Assumptions C61_clock_step.
