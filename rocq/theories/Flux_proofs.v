(* Flux_proofs.v - adding flux tracks one after the other. *)
From Verif Require Import Base Base_lemmas Chs_model BitRing_model Mfm_model Types_model System34_model MetaSector_model BitStream_model
  DiskImage_model DiskImage_spec DiskImage_proofs Pll_model Flux_model Flux_spec.
From Coq Require Import Lia.
Import ListNotations.
Local Open Scope nat_scope.

Definition flux_free (d : DiskImage) : Prop := di_multires d = false /\ (di_res d = [] \/ di_res d = [RFluxStream]).
Lemma flux_add_ok dec d s ch revs bs : wf d s -> flux_free d -> (ch_h ch < 2)%N -> dec ch (synthesize revs) = Ok bs ->
  exists d', flux_add dec d ch revs = Ok d' /\ wf d' (append_to s (ch_h ch) (flux_track ch bs)) /\ flux_free d' /\ di_geom d' = di_geom d.
Proof.
  intros Hwf [Hmul Hres] Hh Ht. unfold flux_add, add_track_fluxstream.
  replace (2 <=? ch_h ch)%N with false by (symmetry; apply N.leb_gt; exact Hh).
  assert (Hrej : res_rejects d RFluxStream = false) by (unfold res_rejects; rewrite Hmul; destruct Hres as [-> | ->]; reflexivity).
  rewrite Hrej, Ht. cbn [obind]. fold (flux_track ch bs).
  set (d1 := push_track (with_res d (res_insert RFluxStream (di_res d))) (ch_h ch) (flux_track ch bs)).
  assert (Hres2 : di_res d1 = [RFluxStream]) by (unfold d1, push_track; cbn; destruct Hres as [-> | ->]; reflexivity).
  exists d1. split; [reflexivity|]. split; [apply push_wf; [apply with_res_wf; exact Hwf|exact Hh]|]. split; [split; [exact Hmul|right; exact Hres2]|]. reflexivity.
Qed.
Lemma flux_add_inv dec d s ch revs d' : wf d s -> flux_free d -> (ch_h ch < 2)%N -> flux_add dec d ch revs = Ok d' ->
  exists bs, dec ch (synthesize revs) = Ok bs /\ wf d' (append_to s (ch_h ch) (flux_track ch bs)) /\ flux_free d' /\ di_geom d' = di_geom d.
Proof.
  intros Hwf Hf Hh E. destruct (dec ch (synthesize revs)) as [bs| e|] eqn:Ed.
  - exists bs. split; [reflexivity|]. destruct (flux_add_ok dec d s ch revs bs Hwf Hf Hh Ed) as (d1 & E1 & A). rewrite E in E1. injection E1 as <-. exact A.
  - exfalso. unfold flux_add, add_track_fluxstream in E. rewrite Ed in E. destruct (2 <=? ch_h ch)%N; [discriminate|]. destruct (res_rejects _ _); discriminate.
  - exfalso. unfold flux_add, add_track_fluxstream in E. rewrite Ed in E. destruct (2 <=? ch_h ch)%N; [discriminate|]. destruct (res_rejects _ _); discriminate.
Qed.
Lemma flux_add_panic dec d ch revs : flux_add dec d ch revs = Panic -> dec ch (synthesize revs) = Panic.
Proof.
  unfold flux_add, add_track_fluxstream. destruct (2 <=? ch_h ch)%N; [discriminate|]. destruct (res_rejects _ _); [discriminate|].
  destruct (dec _ _); [discriminate|discriminate|reflexivity].
Qed.
Lemma laid_nil heads f : heads = 1 \/ heads = 2 -> laid heads 0 f ([], []).
Proof. intros [-> | ->]; (split; [reflexivity|split; [reflexivity|intros i Hi; lia]]). Qed.
Lemma laid_ext heads n f g s : (forall i, i < n -> f i = g i) -> laid heads n f s -> laid heads n g s.
Proof. intros E (A & B & C). split; [exact A|]. split; [exact B|]. intros i Hi. rewrite C by exact Hi. rewrite E by exact Hi. reflexivity. Qed.
Lemma laid_snoc heads n f s : heads = 1 \/ heads = 2 -> laid heads n f s -> laid heads (S n) f (append_to s (N.of_nat (n mod heads)) (f n)).
Proof.
  intros Hh (A & B & C).
  assert (Snoc : forall (l : list DTrack) x k, nth_error l k = Some x -> forall y, nth_error (l ++ [y]) k = Some x).
  { intros l x k H y. rewrite nth_error_app1; [exact H|]. apply nth_error_Some. congruence. }
  destruct Hh as [-> | ->].
  - rewrite !Nat.div_1_r in *. rewrite Nat.mod_1_r. cbn [append_to N.of_nat]. unfold laid. cbn [fst snd]. rewrite Nat.div_1_r. cbn [Nat.eqb] in *.
    split; [rewrite app_length, A; cbn; lia|]. split; [exact B|]. intros i Hi. rewrite Nat.mod_1_r, Nat.div_1_r. cbn [N.of_nat side fst].
    destruct (Nat.eq_dec i n) as [->|D].
    + rewrite nth_error_app2 by lia. replace (n - length (fst s)) with 0 by lia. reflexivity.
    + apply Snoc. specialize (C i ltac:(lia)). rewrite Nat.mod_1_r, Nat.div_1_r in C. exact C.
  - cbn [Nat.eqb] in B. replace (n + 2 - 1) with (n + 1) in A by lia.
    pose proof (Nat.div_mod n 2 ltac:(discriminate)) as D. pose proof (Nat.mod_upper_bound n 2 ltac:(discriminate)) as U.
    set (q := n / 2) in *. set (r := n mod 2) in *. assert (Hr : r = 0 \/ r = 1) by lia.
    assert (Old : forall i, i < n -> forall h' y, nth_error (side (append_to s h' y) (N.of_nat (i mod 2))) (i / 2) = Some (f i)).
    { intros i Hi h' y. specialize (C i Hi). pose proof (Nat.mod_upper_bound i 2 ltac:(discriminate)). assert (H2 : i mod 2 = 0 \/ i mod 2 = 1) by lia.
      destruct H2 as [-> | ->] in C |- *; cbn [N.of_nat Pos.of_succ_nat side] in C |- *; destruct h'; cbn [append_to fst snd]; auto. }
    unfold laid. cbn [Nat.eqb]. replace (S n + 2 - 1) with (n + 2) by lia.
    destruct Hr as [R|R]; rewrite R in *.
    + assert (E1 : (n + 1) / 2 = q) by (symmetry; apply (Nat.div_unique _ 2 q 1); lia). assert (E2 : (n + 2) / 2 = q + 1) by (symmetry; apply (Nat.div_unique _ 2 _ 0); lia).
      assert (E3 : S n / 2 = q) by (symmetry; apply (Nat.div_unique _ 2 q 1); lia).
      rewrite E2, E3. split; [cbn; rewrite app_length; cbn [length]; lia|]. split; [exact B|]. intros i Hi. destruct (Nat.eq_dec i n) as [->|Dn]; [|apply Old; lia].
      fold r q. rewrite R. cbn [N.of_nat append_to side fst]. rewrite nth_error_app2 by lia. replace (q - length (fst s)) with 0 by lia. reflexivity.
    + assert (E1 : (n + 1) / 2 = q + 1) by (symmetry; apply (Nat.div_unique _ 2 _ 0); lia). assert (E2 : (n + 2) / 2 = q + 1) by (symmetry; apply (Nat.div_unique _ 2 _ 1); lia).
      assert (E3 : S n / 2 = q + 1) by (symmetry; apply (Nat.div_unique _ 2 _ 0); lia).
      rewrite E2, E3. split; [cbn; lia|]. split; [cbn; rewrite app_length; cbn [length]; lia|]. intros i Hi. destruct (Nat.eq_dec i n) as [->|Dn]; [|apply Old; lia].
      fold r q. rewrite R. cbn [N.of_nat append_to side snd Pos.of_succ_nat]. rewrite nth_error_app2 by lia. replace (q - length (snd s)) with 0 by lia. reflexivity.
Qed.
Lemma ch_at_head heads i : heads = 1 \/ heads = 2 -> (ch_h (ch_at heads i) < 2)%N.
Proof. intros H. cbn [ch_at ch_h]. pose proof (Nat.mod_upper_bound i heads). destruct H; subst; lia. Qed.
(* the state of the iterator over (cylinder, head) after i calls *)
Definition iter_at (heads i : nat) : option DiskCh := match i with O => None | S i => Some (ch_at heads i) end.
Lemma iter_step heads c i : heads = 1 \/ heads = 2 -> i < c * heads -> ch_iter_next (mkCh (N.of_nat c) (N.of_nat heads)) (iter_at heads i) = (Some (ch_at heads i), iter_at heads (S i)).
Proof.
  intros Hh Hi. destruct i as [|i].
  - cbn [iter_at ch_iter_next]. unfold ch_at. rewrite Nat.div_0_l, Nat.mod_0_l by (destruct Hh; lia). reflexivity.
  - cbn [iter_at ch_iter_next]. unfold next_track. cbn [ch_c ch_h ch_at].
    destruct Hh as [-> | ->].
    + rewrite Nat.mod_1_r, Nat.div_1_r. change (N.of_nat 0 <? N.of_nat 1 - 1)%N with false. cbn iota.
      replace (N.of_nat i <? N.of_nat c - 1)%N with true by (symmetry; apply N.ltb_lt; lia). unfold ch_at. rewrite Nat.mod_1_r, Nat.div_1_r. do 2 f_equal; f_equal; lia.
    + change (N.of_nat 2 - 1)%N with 1%N. pose proof (Nat.div_mod i 2 ltac:(discriminate)) as D. pose proof (Nat.mod_upper_bound i 2 ltac:(discriminate)) as U.
      unfold ch_at. set (q := i / 2) in *. set (r := i mod 2) in *. assert (Hr : r = 0 \/ r = 1) by lia. destruct Hr as [R|R]; rewrite R in *.
      * change (N.of_nat 0 <? 1)%N with true. cbn iota. assert (E3 : S i / 2 = q) by (symmetry; apply (Nat.div_unique _ 2 q 1); lia). assert (E4 : S i mod 2 = 1) by (symmetry; apply (Nat.mod_unique _ 2 q); lia).
        rewrite E3, E4. reflexivity.
      * change (N.of_nat 1 <? 1)%N with false. cbn iota. assert (E3 : S i / 2 = q + 1) by (symmetry; apply (Nat.div_unique _ 2 _ 0); lia). assert (E4 : S i mod 2 = 0) by (symmetry; apply (Nat.mod_unique _ 2 (q + 1)); lia).
        replace (N.of_nat q <? N.of_nat c - 1)%N with true by (symmetry; apply N.ltb_lt; lia). rewrite E3, E4. replace (N.of_nat q + 1)%N with (N.of_nat (q + 1)) by lia. reflexivity.
Qed.
Lemma iter_end heads c i : heads = 1 \/ heads = 2 -> 0 < c -> c * heads <= i -> i <= c * heads -> ch_iter_next (mkCh (N.of_nat c) (N.of_nat heads)) (iter_at heads i) = (None, iter_at heads i).
Proof.
  intros Hh Hc Hi Hi2. assert (i = c * heads) by lia. subst i. destruct (c * heads) as [|i] eqn:E; [destruct Hh; lia|].
  cbn [iter_at ch_iter_next]. unfold next_track. cbn [ch_c ch_h ch_at].
  destruct Hh as [-> | ->].
  - rewrite Nat.mod_1_r, Nat.div_1_r. change (N.of_nat 0 <? N.of_nat 1 - 1)%N with false. cbn iota.
    replace (N.of_nat i <? N.of_nat c - 1)%N with false by (symmetry; apply N.ltb_ge; lia). reflexivity.
  - change (N.of_nat 2 - 1)%N with 1%N. assert (E3 : i / 2 = c - 1) by (symmetry; apply (Nat.div_unique _ 2 _ 1); lia). assert (E4 : i mod 2 = 1) by (symmetry; apply (Nat.mod_unique _ 2 (c - 1)); lia).
    rewrite E3, E4. change (N.of_nat 1 <? 1)%N with false. cbn iota. replace (N.of_nat (c - 1) <? N.of_nat c - 1)%N with false by (symmetry; apply N.ltb_ge; lia). reflexivity.
Qed.
