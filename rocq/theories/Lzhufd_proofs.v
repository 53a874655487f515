(* Lzhufd_proofs.v - how long codewords can get. *)
From Coq Require Import Permutation Sorted.
From Verif Require Import Base Base_lemmas Lzhuf_spec.
Import ListNotations.
Open Scope nat_scope.

Fixpoint fibw (k : nat) : N := match k with O => 1 | S k' => match k' with O => 2 | S k'' => fibw k' + fibw k'' end end%N.
Lemma fibw_eq k : fibw (S (S k)) = (fibw (S k) + fibw k)%N.
Proof. reflexivity. Qed.
Lemma fibw_mono k : (1 <= fibw k)%N /\ (fibw k <= fibw (S k))%N.
Proof.
  induction k as [|k [I1 I2]]; [vm_compute; split; discriminate|]. rewrite fibw_eq. lia.
Qed.
Lemma fibw_le a b : a <= b -> (fibw a <= fibw b)%N.
Proof. induction 1 as [|b H IH]; [lia|]. pose proof (fibw_mono b). lia. Qed.
Lemma strong_app {A} (R : A -> A -> Prop) a b : StronglySorted R (a ++ b) -> forall x y, In x a -> In y b -> R x y.
Proof.
  induction a as [|h a IH]; intros S0 x y Hx Hy; [destruct Hx|]. cbn [app] in S0. inversion S0 as [|? ? S1 F]; subst.
  destruct Hx as [->|Hx]; [|apply (IH S1); assumption]. apply (proj1 (Forall_forall _ _) F). apply in_or_app. right. exact Hy.
Qed.
Fixpoint tsize (t : ctree) : nat := match t with Leaf _ => 1 | Node l r => S (tsize l + tsize r) end.

Section Depth.
Variables (c : list N) (order : list (ctree * ctree)).
Hypothesis Hs : Sorted N.le (flat_map (fun lr => [tree_weight c (fst lr); tree_weight c (snd lr)]) order).
Lemma uncle a b x y : In (a, b) order -> In (x, y) order -> (a = Node x y \/ b = Node x y) -> (1 <= tree_weight c x)%N -> (1 <= tree_weight c y)%N ->
  (a = Node x y -> tree_weight c x <= tree_weight c b /\ tree_weight c y <= tree_weight c b)%N /\
  (b = Node x y -> tree_weight c x <= tree_weight c a /\ tree_weight c y <= tree_weight c a)%N.
Proof.
  intros H1 H2 Hp Wx Wy. set (g := fun lr : ctree * ctree => [tree_weight c (fst lr); tree_weight c (snd lr)]) in *.
  assert (SS : StronglySorted N.le (flat_map g order)). { apply Sorted_StronglySorted; [|exact Hs]. intros p q r; apply N.le_trans. }
  apply in_split in H1. destruct H1 as [o1 [o2 E]]. rewrite E in H2. apply in_app_or in H2.
  assert (H2' : In (x, y) o1 \/ In (x, y) o2).
  { destruct H2 as [H2|[H2|H2]]; [left; exact H2| |right; exact H2]. exfalso. injection H2 as -> ->.
    destruct Hp as [Hp|Hp]; apply (f_equal tsize) in Hp; cbn [tsize] in Hp; lia. }
  assert (Fl : forall l r o, In (l, r) o -> In (tree_weight c l) (flat_map g o) /\ In (tree_weight c r) (flat_map g o)).
  { intros l r o Hi. split; apply in_flat_map; exists (l, r); (split; [exact Hi|]); unfold g; cbn [fst snd In]; auto. }
  rewrite E, flat_map_app in SS. cbn [flat_map] in SS.
  destruct H2' as [H2'|H2'].
  - destruct (Fl _ _ _ H2') as [F1 F2]. destruct (Fl a b [(a, b)] ltac:(left; reflexivity)) as [F3 F4].
    assert (G : forall p q, In p (flat_map g o1) -> In q [tree_weight c a; tree_weight c b] -> (p <= q)%N).
    { intros p q Hp' Hq. apply (strong_app _ _ _ SS); [exact Hp'|]. apply in_or_app. left. exact Hq. }
    split; intros _; split; apply G; try assumption; cbn [In]; auto.
  - exfalso. destruct (Fl _ _ _ H2') as [F1 F2]. rewrite app_assoc in SS.
    assert (G : forall p, In p [tree_weight c a; tree_weight c b] -> (p <= tree_weight c x)%N).
    { intros p Hp'. apply (strong_app _ _ _ SS); [|exact F1]. apply in_or_app. right. exact Hp'. }
    destruct Hp as [Hp|Hp]; rewrite Hp in G.
    + specialize (G _ (or_introl eq_refl)). cbn [tree_weight] in G. lia.
    + specialize (G _ (or_intror (or_introl eq_refl))). cbn [tree_weight] in G. lia.
Qed.
Lemma weight_pos u : (forall y, In y (leaves u) -> (1 <= nth y c 0)%N) -> (1 <= tree_weight c u)%N.
Proof.
  induction u as [y|l IHl r IHr]; intros H; cbn [tree_weight leaves] in *; [apply H; left; reflexivity|].
  specialize (IHl ltac:(intros; apply H, in_or_app; auto)). lia.
Qed.
Lemma depth_fib w : forall u y, codeword u y w -> (forall p, In p (siblings u) -> In p order) -> (forall y, In y (leaves u) -> (1 <= nth y c 0)%N) ->
  (fibw (length w) <= tree_weight c u)%N.
Proof.
  assert (G : forall k w, length w <= k -> forall u y, codeword u y w -> (forall p, In p (siblings u) -> In p order) -> (forall y, In y (leaves u) -> (1 <= nth y c 0)%N) ->
    (fibw (length w) <= tree_weight c u)%N); [|intros u y; exact (G (length w) w (le_n _) u y)].
  induction k as [|k IH]; intros w0 Hk u y C Hi Hl.
  - destruct w0; [|cbn [length] in Hk; lia]. change (fibw (length [])) with 1%N. apply weight_pos. exact Hl.
  - destruct w0 as [|b w1]; [change (fibw (length [])) with 1%N; apply weight_pos; exact Hl|]. cbn [length] in Hk.
    assert (Q : exists l r ch, u = Node l r /\ codeword ch y w1 /\ (ch = l /\ b = false \/ ch = r /\ b = true)).
    { inversion C; subst; eauto 10. }
    destruct Q as [l [r [ch [-> [C1 Hch]]]]]. cbn [siblings leaves tree_weight] in *.
    assert (Il : forall p, In p (siblings l) -> In p order) by (intros p Hp; apply Hi; right; apply in_or_app; left; exact Hp).
    assert (Ir : forall p, In p (siblings r) -> In p order) by (intros p Hp; apply Hi; right; apply in_or_app; right; exact Hp).
    assert (Ll : forall y, In y (leaves l) -> (1 <= nth y c 0)%N) by (intros; apply Hl, in_or_app; auto).
    assert (Lr : forall y, In y (leaves r) -> (1 <= nth y c 0)%N) by (intros; apply Hl, in_or_app; auto).
    pose proof (weight_pos l Ll) as Pl. pose proof (weight_pos r Lr) as Pr.
    destruct w1 as [|b' w2]; [change (fibw (length [b])) with 2%N; lia|].
    change (length (b :: b' :: w2)) with (S (S (length w2))). rewrite fibw_eq.
    assert (Ic : forall p, In p (siblings ch) -> In p order) by (destruct Hch as [[-> _]|[-> _]]; assumption).
    assert (Lc : forall y, In y (leaves ch) -> (1 <= nth y c 0)%N) by (destruct Hch as [[-> _]|[-> _]]; assumption).
    pose proof (IH (b' :: w2) ltac:(lia) ch y C1 Ic Lc) as J1. change (length (b' :: w2)) with (S (length w2)) in J1.
    assert (Q : exists x z gc, ch = Node x z /\ codeword gc y w2 /\ (gc = x \/ gc = z)) by (inversion C1; subst; eauto 10).
    destruct Q as [x [z [gc [Ech [C2 Hgc]]]]]. rewrite Ech in Ic, Lc. cbn [siblings leaves] in Ic, Lc.
    assert (Ix : forall p, In p (siblings x) -> In p order) by (intros p Hp; apply Ic; right; apply in_or_app; left; exact Hp).
    assert (Iz : forall p, In p (siblings z) -> In p order) by (intros p Hp; apply Ic; right; apply in_or_app; right; exact Hp).
    assert (Lx : forall y, In y (leaves x) -> (1 <= nth y c 0)%N) by (intros; apply Lc, in_or_app; auto).
    assert (Lz : forall y, In y (leaves z) -> (1 <= nth y c 0)%N) by (intros; apply Lc, in_or_app; auto).
    assert (J2 : (fibw (length w2) <= tree_weight c gc)%N). { cbn [length] in Hk. apply (IH w2 ltac:(lia) gc y C2); destruct Hgc as [->| ->]; assumption. }
    assert (Hor : l = Node x z \/ r = Node x z) by (destruct Hch as [[<- _]|[<- _]]; auto).
    destruct (uncle l r x z (Hi _ (or_introl eq_refl)) (Ic _ (or_introl eq_refl)) Hor (weight_pos x Lx) (weight_pos z Lz)) as [U1 U2].
    destruct Hch as [[Hc _]|[Hc _]].
    + assert (El : l = Node x z) by congruence. destruct (U1 El) as [A1 A2]. rewrite Hc in J1. destruct Hgc as [->| ->]; lia.
    + assert (Er : r = Node x z) by congruence. destruct (U2 Er) as [A1 A2]. rewrite Hc in J1. destruct Hgc as [->| ->]; lia.
Qed.
End Depth.
Lemma weight_leaves c u : tree_weight c u = fold_right N.add 0%N (map (fun y => nth y c 0%N) (leaves u)).
Proof.
  induction u as [y|l IHl r IHr]; cbn [tree_weight leaves map fold_right]; [lia|]. rewrite map_app, fold_right_app, IHl, IHr. clear.
  induction (map (fun y => nth y c 0%N) (leaves l)) as [|h q IH]; cbn [fold_right]; [lia|]. lia.
Qed.
Lemma sum_perm a b : Permutation a b -> fold_right N.add 0%N a = fold_right N.add 0%N b.
Proof. induction 1; cbn [fold_right]; lia. Qed.
Lemma map_nth_seq (c : list N) : map (fun y => nth y c 0%N) (seq 0 (length c)) = c.
Proof.
  apply (nth_ext _ _ 0%N 0%N); [rewrite map_length, seq_length; reflexivity|]. intros i Hi. rewrite map_length, seq_length in Hi.
  rewrite (nth_indep _ 0%N (nth 0 c 0%N)) by (rewrite map_length, seq_length; exact Hi).
  rewrite (map_nth (fun y => nth y c 0%N)), seq_nth by exact Hi. reflexivity.
Qed.
Lemma huffman_total n c u : length c = n -> huffman_tree n c u -> tree_weight c u = sum_counts c.
Proof.
  intros L [P _]. rewrite weight_leaves, (sum_perm _ _ (Permutation_map _ P)), <- L, map_nth_seq. reflexivity.
Qed.
Lemma huffman_depth n c u y w : length c = n -> Forall (fun x => (1 <= x)%N) c -> huffman_tree n c u -> codeword u y w -> (fibw (length w) <= sum_counts c)%N.
Proof.
  intros L F H C. rewrite <- (huffman_total n c u L H). destruct H as [P [order [Po So]]].
  apply (depth_fib c order So w u y C).
  - intros p Hp. apply (Permutation_in _ (Permutation_sym Po)). exact Hp.
  - intros z Hz. apply (Permutation_in _ P) in Hz. apply in_seq in Hz. apply (proj1 (Forall_forall _ _) F). apply nth_In. lia.
Qed.
(* the counts *)
Lemma upd_sum l i x : i < length l -> (sum_counts (upd l i x) + nth i l 0 = sum_counts l + x)%N.
Proof.
  revert i; induction l as [|h l IH]; intros [|i] Hi; cbn [length] in Hi; try lia; cbn [upd sum_counts fold_right nth]; [lia|].
  specialize (IH i ltac:(lia)). unfold sum_counts in IH. lia.
Qed.
Lemma count_symbol_facts c y : y < length c -> Forall (fun x => (1 <= x)%N) c ->
  length (count_symbol c y) = length c /\ Forall (fun x => (1 <= x)%N) (count_symbol c y) /\ (sum_counts (count_symbol c y) <= sum_counts c + 1)%N.
Proof.
  intros Hy F. unfold count_symbol.
  set (c' := if (sum_counts c =? 0x8000)%N then map (fun x => (x + 1) / 2)%N c else c).
  assert (X : length c' = length c /\ Forall (fun x => (1 <= x)%N) c' /\ (sum_counts c' <= sum_counts c)%N).
  { unfold c'. destruct (sum_counts c =? 0x8000)%N; [|split; [reflexivity|split; [exact F|lia]]]. clear - F. split; [apply map_length|].
    induction F as [|h l Hh F [I1 I2]]; cbn [map sum_counts fold_right]; [split; [constructor|lia]|].
    assert (1 <= (h + 1) / 2 <= h)%N. { split; [apply N.div_le_lower_bound; lia|]. apply N.lt_succ_r, N.div_lt_upper_bound; lia. }
    split; [constructor; [lia|exact I1]|]. unfold sum_counts in I2. lia. }
  destruct X as [X1 [X2 X3]]. rewrite upd_length. split; [exact X1|]. split.
  - apply Forall_forall. intros x Hx. apply In_nth_error in Hx. destruct Hx as [i Hx].
    destruct (Nat.eq_dec i y) as [->|Ne].
    + rewrite nth_error_upd_same in Hx by lia. injection Hx as <-. lia.
    + rewrite nth_error_upd_other in Hx by congruence. apply nth_error_In in Hx. exact (proj1 (Forall_forall _ _) X2 x Hx).
  - pose proof (upd_sum c' y (nth y c' 0 + 1)%N ltac:(lia)). lia.
Qed.
Lemma counts_facts n past : Forall (fun y => y < n) past ->
  length (counts n past) = n /\ Forall (fun x => (1 <= x)%N) (counts n past) /\ (sum_counts (counts n past) <= N.of_nat n + N.of_nat (length past))%N.
Proof.
  induction past as [|y past IH] using rev_ind; intros F.
  - unfold counts. cbn [fold_left]. rewrite repeat_length. split; [reflexivity|]. split; [apply Forall_forall; intros x Hx; apply repeat_spec in Hx; lia|].
    change (length (@nil nat)) with 0. assert (E : sum_counts (repeat 1%N n) = N.of_nat n); [|lia]. clear. unfold sum_counts. induction n; cbn [repeat fold_right]; lia.
  - apply Forall_app in F. destruct F as [F1 F2]. inversion F2 as [|? ? Hy _]; subst. destruct (IH F1) as [I1 [I2 I3]].
    unfold counts in *. rewrite fold_left_app. cbn [fold_left]. destruct (count_symbol_facts _ y ltac:(rewrite I1; exact Hy) I2) as [J1 [J2 J3]].
    rewrite app_length. cbn [length]. split; [lia|]. split; [exact J2|]. lia.
Qed.
