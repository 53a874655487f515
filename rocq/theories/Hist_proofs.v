(* Hist_proofs.v - the buckets, the peaks and the clock. *)
From Verif Require Import Base Base_lemmas Pll_spec Pll_model Hist_model Hist_spec.
From Coq Require Import QArith Qabs Qround Lia Lqa.
Import ListNotations.
Local Close Scope Q_scope.
Local Open Scope nat_scope.

Lemma bucket_in v p q : (4 <= p <= 13)%nat -> q < 8 -> (2 ^ N.of_nat p + N.of_nat q * 2 ^ N.of_nat (p - 3) <= v < 2 ^ N.of_nat p + N.of_nat (S q) * 2 ^ N.of_nat (p - 3))%N ->
  bucket_of v = Some (16 + 8 * (p - 4) + q).
Proof.
  intros Hp Hq Hv.
  assert (E8 : (2 ^ N.of_nat p = 8 * 2 ^ N.of_nat (p - 3))%N) by (replace (N.of_nat p) with (3 + N.of_nat (p - 3))%N by lia; rewrite N.pow_add_r; reflexivity).
  assert (Es : (2 ^ N.succ (N.of_nat p) = 2 * 2 ^ N.of_nat p)%N) by apply N.pow_succ_r'.
  assert (Lo : (16 <= 2 ^ N.of_nat p)%N) by (change 16%N with (2 ^ 4)%N; apply N.pow_le_mono_r; lia).
  assert (Hi : (2 ^ N.succ (N.of_nat p) <= 16384)%N) by (change 16384%N with (2 ^ 14)%N; apply N.pow_le_mono_r; lia).
  assert (L : (N.log2 v = N.of_nat p)%N) by (apply N.log2_unique; [lia|]; nia).
  unfold bucket_of. replace (v <? 16)%N with false by (symmetry; apply N.ltb_ge; nia). replace (v <? 16384)%N with true by (symmetry; apply N.ltb_lt; nia).
  rewrite L. f_equal. replace (N.of_nat p - 3)%N with (N.of_nat (p - 3)) by lia.
  replace ((v - 2 ^ N.of_nat p) / 2 ^ N.of_nat (p - 3))%N with (N.of_nat q); [lia|].
  apply (N.div_unique _ _ _ (v - 2 ^ N.of_nat p - N.of_nat q * 2 ^ N.of_nat (p - 3))%N); nia.
Qed.
Lemma bucket_range v i : bucket_of v = Some i -> i < 96 /\ (bucket_lo i <= v < bucket_lo (S i))%N.
Proof.
  unfold bucket_of. destruct (N.ltb_spec v 16) as [A|A].
  - intros E. injection E as <-. split; [lia|]. unfold bucket_lo. replace (N.to_nat v <? 16) with true by (symmetry; apply Nat.ltb_lt; lia).
    destruct (Nat.ltb_spec (S (N.to_nat v)) 16) as [B|B]; [lia|]. assert (v = 15)%N by lia. subst v. cbv; split; [discriminate|reflexivity].
  - destruct (N.ltb_spec v 16384) as [B|B]; [|discriminate]. intros E. injection E as <-.
    destruct (N.log2_spec v ltac:(lia)) as [L1 L2]. set (p := N.log2 v) in *.
    assert (P : (4 <= p <= 13)%N).
    { split; [|]. - destruct (N.le_gt_cases 4 p) as [|G]; [assumption|]. exfalso. assert (2 ^ N.succ p <= 2 ^ 4)%N by (apply N.pow_le_mono_r; lia). change (2 ^ 4)%N with 16%N in *. lia.
      - destruct (N.le_gt_cases p 13) as [|G]; [assumption|]. exfalso. assert (2 ^ 14 <= 2 ^ p)%N by (apply N.pow_le_mono_r; lia). change (2 ^ 14)%N with 16384%N in *. lia. }
    assert (Q8 : forall w q, (w <> 0)%N -> (q = (v - 8 * w) / w)%N -> (8 * w <= v < 16 * w)%N -> (q < 8 /\ 8 * w + q * w <= v < 8 * w + (q + 1) * w)%N).
    { intros w q Hw Hq Hv. pose proof (N.div_mod (v - 8 * w) w Hw) as D. pose proof (N.mod_upper_bound (v - 8 * w) w Hw) as M. rewrite <- Hq in D. split; nia. }
    clearbody p. assert (C : (p = 4 \/ p = 5 \/ p = 6 \/ p = 7 \/ p = 8 \/ p = 9 \/ p = 10 \/ p = 11 \/ p = 12 \/ p = 13)%N) by lia. clear P A B.
    repeat (destruct C as [C|C]); subst p;
    match goal with |- context [(v - ?a) / ?b] => change (v - a)%N with (v - 8 * b)%N | |- context [((v - ?a) / ?b)%N] => idtac end;
    match goal with |- context [((v - ?a) / 2 ^ (?b - 3))%N] => let w := eval vm_compute in (2 ^ (b - 3))%N in change (2 ^ (b - 3))%N with w; let x := eval vm_compute in a in change a with x in *;
      destruct (Q8 w ((v - x) / w)%N ltac:(discriminate) eq_refl) as [Q1 Q2]; [cbn [N.succ Pos.succ] in L2; vm_compute N.pow in L1, L2; lia|]; set (q := ((v - x) / w)%N) in *; clearbody q end;
    (assert (Cq : (q = 0 \/ q = 1 \/ q = 2 \/ q = 3 \/ q = 4 \/ q = 5 \/ q = 6 \/ q = 7)%N) by lia); repeat (destruct Cq as [Cq|Cq]); subst q;
    (split; [cbn; lia|]); match goal with |- (bucket_lo ?a <= v < bucket_lo ?b)%N => let x := eval vm_compute in (bucket_lo a) in let y := eval vm_compute in (bucket_lo b) in change (bucket_lo a) with x; change (bucket_lo b) with y end; lia.
Qed.

(* the peaks *)
Definition peak (thr : nat) (cs : list nat) (i : nat) : bool := (nth (i - 1) cs 0 <=? nth i cs 0) && (nth (S i) cs 0 <? nth i cs 0) && (thr <=? nth i cs 0).
Lemma find_peaks_run thr : forall counts pre p c, find_peaks thr (Some p) (Some c) (length pre + 2) counts = filter (peak thr (pre ++ p :: c :: counts)) (seq (S (length pre)) (length counts)).
Proof.
  induction counts as [|b counts IH]; intros pre p c; [reflexivity|]. cbn [find_peaks length seq filter].
  specialize (IH (pre ++ [p]) c b). rewrite app_length in IH. cbn [length] in IH. replace (S (length pre + 2)) with (length pre + 1 + 2) by lia. rewrite IH.
  replace (S (length pre + 1)) with (S (S (length pre))) by lia. rewrite <- app_assoc. cbn [app].
  assert (E : peak thr (pre ++ p :: c :: b :: counts) (S (length pre)) = (p <=? c) && (b <? c) && (thr <=? c)).
  { unfold peak. replace (S (length pre) - 1) with (length pre + 0) by lia. replace (S (length pre)) with (length pre + 1) by lia. replace (S (length pre + 1)) with (length pre + 2) by lia.
    rewrite !app_nth2_plus. reflexivity. }
  rewrite E. destruct (_ && _); [cbn [app]; f_equal; lia|reflexivity].
Qed.
Lemma find_peaks_eq thr cs : find_peaks thr None None 0 cs = filter (peak thr cs) (seq 1 (length cs - 2)).
Proof.
  destruct cs as [|p [|c counts]]; [reflexivity|reflexivity|]. cbn [find_peaks app length]. replace (S (S (length counts)) - 2) with (length counts) by lia. exact (find_peaks_run thr counts [] p c).
Qed.
Definition thr_of (rd : Q -> Q) (cs : list nat) : nat := round_nat (rd (inject_Z (Z.of_nat (list_sum cs)) * c005)%Q).
Definition median (i : nat) : N := ((bucket_lo i + (bucket_lo (S i) - 1)) / 2)%N.
Lemma base_time_first rd cs t : base_transition_time rd cs = Some t -> exists i, peak (thr_of rd cs) cs i = true /\ 1 <= i /\ S i < length cs /\ t = rd (inject_Z (Z.of_N (median i)) / 1000000000)%Q.
Proof.
  unfold base_transition_time, local_maxima. fold (thr_of rd cs). rewrite find_peaks_eq. destruct (filter _ _) as [|i [|j l]] eqn:E; [discriminate|discriminate|]. intros H. injection H as <-.
  assert (Hi : In i (filter (peak (thr_of rd cs) cs) (seq 1 (length cs - 2)))) by (rewrite E; left; reflexivity). apply filter_In in Hi. destruct Hi as [Hi Hp]. apply in_seq in Hi.
  exists i. split; [exact Hp|]. split; [lia|]. split; [lia|reflexivity].
Qed.
Lemma base_time_is rd cs a b : (forall i, i < a -> nth i cs 0 = 0) -> 1 <= a -> a < b -> S b < length cs -> peak (thr_of rd cs) cs a = true -> peak (thr_of rd cs) cs b = true ->
  base_transition_time rd cs = Some (rd (inject_Z (Z.of_N (median a)) / 1000000000)%Q).
Proof.
  intros Hz Ha Hab Hb Pa Pb. unfold base_transition_time, local_maxima. fold (thr_of rd cs). rewrite find_peaks_eq.
  replace (length cs - 2) with ((a - 1) + (S (length cs - 2 - a))) by lia. rewrite seq_app, filter_app. replace (1 + (a - 1)) with a by lia. cbn [seq filter]. rewrite Pa.
  assert (E0 : filter (peak (thr_of rd cs) cs) (seq 1 (a - 1)) = []).
  { assert (G : forall l, (forall i, In i l -> i < a) -> filter (peak (thr_of rd cs) cs) l = []).
    { induction l as [|x l IH]; intros H; [reflexivity|]. cbn [filter]. replace (peak (thr_of rd cs) cs x) with false; [apply IH; intros i Hi; apply H; right; exact Hi|].
      symmetry. unfold peak. rewrite (Hz x (H x (or_introl eq_refl))). assert (F0 : (nth (S x) cs 0 <? 0) = false) by (apply Nat.ltb_ge; lia). rewrite F0, andb_false_r. reflexivity. }
    apply G. intros i Hi. apply in_seq in Hi. lia. }
  rewrite E0. cbn [app]. assert (Hin : In b (filter (peak (thr_of rd cs) cs) (seq (S a) (length cs - 2 - a)))) by (apply filter_In; split; [apply in_seq; lia|exact Pb]).
  destruct (filter (peak (thr_of rd cs) cs) (seq (S a) (length cs - 2 - a))) as [|j l]; [contradiction|reflexivity].
Qed.
(* the counts *)
Definition sample (rd : Q -> Q) (deltas : list Q) (fraction : Q) : list Q := firstn (round_nat (rd (inject_Z (Z.of_nat (length deltas)) * fraction)%Q)) deltas.
Definition in_bucket (rd : Q -> Q) (i : nat) (d : Q) : bool := match bucket_of (to_ns rd d) with Some j => j =? i | None => false end.
Lemma filter_map_len {A B} (f : A -> B) p l : length (filter p (map f l)) = length (filter (fun x => p (f x)) l).
Proof. induction l as [|x l IH]; [reflexivity|]. cbn [map filter]. destruct (p (f x)); cbn [length]; rewrite IH; reflexivity. Qed.
Lemma hist_length rd deltas f : length (hist_new rd deltas f) = 96.
Proof. unfold hist_new. rewrite map_length, seq_length. reflexivity. Qed.
Lemma hist_nth rd deltas f i : i < 96 -> nth i (hist_new rd deltas f) 0 = length (filter (in_bucket rd i) (sample rd deltas f)).
Proof.
  intros H. unfold hist_new. fold (sample rd deltas f). apply nth_error_nth.
  assert (E : nth_error (seq 0 96) i = Some i) by (rewrite (nth_error_nth' _ 0) by (rewrite seq_length; exact H); rewrite seq_nth by exact H; reflexivity).
  etransitivity; [exact (map_nth_error _ _ _ E)|]. cbv beta. rewrite filter_map_len. reflexivity.
Qed.
Lemma sum_counts (l : list nat) n : (forall x, In x l -> x < n) -> list_sum (map (fun i => length (filter (fun j => j =? i) l)) (seq 0 n)) = length l.
Proof.
  induction l as [|x l IH]; intros H.
  - cbn [filter length]. clear. assert (G : forall s, list_sum (map (fun _ : nat => 0) (seq s n)) = 0) by (induction n as [|n IH]; intros s; [reflexivity|exact (IH (S s))]). apply G.
  - cbn [length]. rewrite <- (IH (fun y Hy => H y (or_intror Hy))). assert (Hx : x < n) by (apply H; left; reflexivity). clear IH H.
    assert (G : forall m s, (s <= x < s + m -> list_sum (map (fun i => length (filter (fun j => j =? i) (x :: l))) (seq s m)) = S (list_sum (map (fun i => length (filter (fun j => j =? i) l)) (seq s m)))) /\
                            (x < s -> list_sum (map (fun i => length (filter (fun j => j =? i) (x :: l))) (seq s m)) = list_sum (map (fun i => length (filter (fun j => j =? i) l)) (seq s m)))).
    { induction m as [|m IH]; intros s; [split; [lia|reflexivity]|]. destruct (IH (S s)) as [I1 I2]. cbn [seq map list_sum fold_right]. fold (list_sum (map (fun i => length (filter (fun j => j =? i) (x :: l))) (seq (S s) m))).
      fold (list_sum (map (fun i => length (filter (fun j => j =? i) l)) (seq (S s) m))). cbn [filter]. split; intros Hs; destruct (Nat.eqb_spec x s) as [E|E]; try lia.
      - subst. cbn [length]. cbn [filter] in I2. rewrite I2 by lia. reflexivity.
      - cbn [filter] in I1. rewrite I1 by lia. lia.
      - cbn [filter] in I2. rewrite I2 by lia. reflexivity. }
    apply (G n 0). lia.
Qed.
Definition opt_list {A} (x : option A) : list A := match x with Some a => [a] | None => [] end.
Lemma total_counts rd deltas f : list_sum (hist_new rd deltas f) = length (flat_map (fun d => opt_list (bucket_of (to_ns rd d))) (sample rd deltas f)).
Proof.
  set (l := flat_map _ _). rewrite <- (sum_counts l 96).
  - f_equal. unfold hist_new. fold (sample rd deltas f). apply map_ext. intros i. rewrite filter_map_len. subst l. induction (sample rd deltas f) as [|d ds IH]; [reflexivity|].
    cbn [filter flat_map]. destruct (bucket_of (to_ns rd d)) as [j|]; cbn [opt_list app filter]; [|exact IH]. destruct (j =? i); cbn [length]; rewrite IH; reflexivity.
  - intros x Hx. subst l. apply in_flat_map in Hx. destruct Hx as (d & _ & Hx). destruct (bucket_of (to_ns rd d)) as [j|] eqn:E; [|contradiction]. destruct Hx as [<-|[]]. apply (bucket_range _ _ E).
Qed.
Lemma total_le rd deltas f : list_sum (hist_new rd deltas f) <= length (sample rd deltas f).
Proof.
  rewrite total_counts. induction (sample rd deltas f) as [|d ds IH]; [apply le_n|]. cbn [flat_map length]. rewrite app_length. destruct (bucket_of (to_ns rd d)); cbn [opt_list length]; lia.
Qed.
Lemma sample_in rd deltas f d : In d (sample rd deltas f) -> In d deltas.
Proof. unfold sample. intros H. rewrite <- (firstn_skipn (round_nat (rd (inject_Z (Z.of_nat (length deltas)) * f)%Q)) deltas). apply in_or_app. left. exact H. Qed.
(* a peak has transitions *)
Lemma peak_inhabited rd deltas f thr i : S i < 96 -> peak thr (hist_new rd deltas f) i = true -> exists d, In d (sample rd deltas f) /\ bucket_of (to_ns rd d) = Some i.
Proof.
  intros Hi H. unfold peak in H. apply andb_prop in H. destruct H as [H _]. apply andb_prop in H. destruct H as [_ H]. apply Nat.ltb_lt in H. rewrite (hist_nth rd deltas f i) in H by lia.
  destruct (filter (in_bucket rd i) (sample rd deltas f)) as [|d l] eqn:E; [cbn [length] in H; lia|]. assert (Hd : In d (filter (in_bucket rd i) (sample rd deltas f))) by (rewrite E; left; reflexivity).
  apply filter_In in Hd. destruct Hd as [Hd Hb]. exists d. split; [exact Hd|]. unfold in_bucket in Hb. destruct (bucket_of _) as [j|]; [|discriminate]. apply Nat.eqb_eq in Hb. subst. reflexivity.
Qed.
