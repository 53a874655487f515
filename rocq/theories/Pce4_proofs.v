(* Pce4_proofs.v - loading what the PRI writer wrote: the image. *)
From Verif Require Import Base Base_lemmas Mfm_spec
  Chs_model BitRing_model Mfm_model Types_model System34_model MetaSector_model BitStream_model DiskImage_model DiskImage_spec DiskImage_proofs
  Format_model Raw_model Format2_proofs TreeMap_proofs Pce_model Pce_proofs Pce_spec Pce2_proofs Pce3_proofs.
From Coq Require Import Lia Sorting.Sorted.

Lemma shows_wf d s : maps_valid d -> shows d s -> wf d s.
Proof.
  intros Hv Hs. split; [exact Hv|]. destruct Hv as [_ Hr].
  assert (G : forall m l, (forall ti, In ti m -> ti < length (di_pool d)) ->
    (forall c, match nth_error m c with Some ti => nth_error (di_pool d) ti | None => None end = nth_error l c) ->
    map (nth_error (di_pool d)) m = map Some l).
  { clear. intros m l Hm Hc. apply list_eq_nth_error. intros i. rewrite !nth_error_map.
    specialize (Hc i). destruct (nth_error m i) as [ti|] eqn:E.
    - cbn. apply nth_error_In in E. apply Hm in E. apply nth_error_Some in E.
      destruct (nth_error (di_pool d) ti) eqn:E2; [|congruence]. rewrite <- Hc. reflexivity.
    - rewrite <- Hc. reflexivity. }
  split; apply G.
  - intros ti Hi. apply Hr. apply in_or_app; auto.
  - intros c. specialize (Hs (N.of_nat c) 0%N ltac:(reflexivity)). unfold di_track in Hs. cbn [ch_h ch_c head_map obind side] in Hs.
    rewrite Nat2N.id in Hs. congruence.
  - intros ti Hi. apply Hr. apply in_or_app; auto.
  - intros c. specialize (Hs (N.of_nat c) 1%N ltac:(reflexivity)). unfold di_track in Hs. cbn [ch_h ch_c head_map obind side] in Hs.
    rewrite Nat2N.id in Hs. congruence.
Qed.

(* ---- what is saved, in order ---- *)
Definition pair_in (d : DiskImage) (rates : list N) (m : list nat) (i : nat) : list (N * DTrack) :=
  match nth_error m i with
  | Some ti => match nth_error (di_pool d) ti with Some t => [(nth ti rates 0%N, t)] | None => [] end
  | None => []
  end.
Definition pair_at (d : DiskImage) (rates : list N) (i : nat) : list (N * DTrack) :=
  pair_in d rates (di_map0 d) i ++ pair_in d rates (di_map1 d) i.
Definition body_step (out : list N) (p : N * DTrack) : outcome (list N) :=
  let! b := pri_write_track (fst p) (snd p) in Ok (out ++ b).
Lemma body_at d rates i out :
  ofold (fun out ti => match nth_error (di_pool d) ti with
                       | Some t => let! b := pri_write_track (nth ti rates 0%N) t in Ok (out ++ b)
                       | None => Ok out end)
        (opt_list (nth_error (di_map0 d) i) ++ opt_list (nth_error (di_map1 d) i)) out =
  ofold body_step (pair_at d rates i) out.
Proof.
  unfold pair_at, pair_in.
  destruct (nth_error (di_map0 d) i) as [a|], (nth_error (di_map1 d) i) as [b|]; cbn [opt_list app ofold];
    repeat match goal with |- context [nth_error (di_pool d) ?x] => destruct (nth_error (di_pool d) x) end;
    cbn [app ofold obind]; try reflexivity; unfold body_step; cbn [fst snd];
    destruct (pri_write_track _ _); cbn [obind]; reflexivity.
Qed.
Lemma body_all d rates : forall is out,
  ofold (fun out ti => match nth_error (di_pool d) ti with
                       | Some t => let! b := pri_write_track (nth ti rates 0%N) t in Ok (out ++ b)
                       | None => Ok out end)
        (flat_map (fun i => opt_list (nth_error (di_map0 d) i) ++ opt_list (nth_error (di_map1 d) i)) is) out =
  ofold body_step (flat_map (pair_at d rates) is) out.
Proof.
  induction is as [|i is IH]; intros out; [reflexivity|]. rewrite !flat_map_cons. rewrite ofold_app. rewrite body_at. rewrite ofold_app.
  destruct (ofold body_step (pair_at d rates i) out); cbn [obind]; auto.
Qed.
Definition chunks_of (p : N * DTrack) : list (PriChunkType * list N) :=
  match snd p with TBit b => track_chunks (fst p) b | _ => [] end.
Lemma chunk_bytes_app a b : chunk_bytes (a ++ b) = chunk_bytes a ++ chunk_bytes b.
Proof. apply flat_map_app. Qed.
Lemma body_bytes : forall ps out, Forall (fun p => exists b, snd p = TBit b) ps ->
  ofold body_step ps out = Ok (out ++ chunk_bytes (flat_map chunks_of ps)).
Proof.
  induction ps as [|[r t] ps IH]; intros out H; [cbn; rewrite app_nil_r; reflexivity|].
  inversion H as [|? ? [b Hb] H']; subst. cbn [snd] in Hb. subst t.
  cbn [ofold]. unfold body_step at 1. cbn [fst snd]. rewrite write_track_chunks. cbn [obind]. rewrite IH by exact H'.
  rewrite flat_map_cons, chunk_bytes_app, app_assoc. reflexivity.
Qed.

Lemma pair_in_spec d rates m l i : map (nth_error (di_pool d)) m = map Some l -> Forall (fun r => r < 4294967296)%N rates ->
  exists r, (r < 4294967296)%N /\ pair_in d rates m i = match nth_error l i with Some t => [(r, t)] | None => [] end.
Proof.
  intros Hm Hr. pose proof (map_some_nth _ _ _ i Hm) as E. unfold pair_in.
  destruct (nth_error m i) as [ti|].
  - exists (nth ti rates 0%N). split.
    + destruct (Nat.lt_ge_cases ti (length rates)) as [H|H]; [rewrite Forall_forall in Hr; apply Hr, nth_In, H|rewrite nth_overflow by exact H; reflexivity].
    + rewrite E. reflexivity.
  - exists 0%N. split; [reflexivity|]. rewrite <- E. reflexivity.
Qed.

(* ---- the loader after n cylinders ---- *)
Definition seen_heads (s : Heads) (n : nat) : list N :=
  match n with O => [] | _ => (match fst s with [] => [] | _ => [0%N] end) ++ (match snd s with [] => [] | _ => [1%N] end) end.
Definition loaded (s : Heads) (n : nat) (st : PriLoad) (s' : Heads) : Prop :=
  wf (pl_img st) s' /\ res_free (pl_img st) /\
  Forall2 restored (firstn n (fst s)) (fst s') /\ Forall2 restored (firstn n (snd s)) (snd s') /\
  pl_clock st = 0%N /\ pl_rates st = repeat 0%N (length (fst s') + length (snd s')) /\
  (0 < length (fst s') + length (snd s') -> started st) /\
  pl_cyls st = map N.of_nat (seq 0 n) /\ pl_heads st = seen_heads s n.

Lemma firstn_snoc {A} (l : list A) n x : nth_error l n = Some x -> firstn (S n) l = firstn n l ++ [x].
Proof.
  revert n. induction l as [|y l IH]; intros n H; [destruct n; discriminate|].
  destruct n as [|n]; [cbn in H; injection H as ->; reflexivity|]. cbn [nth_error] in H.
  change (firstn (S (S n)) (y :: l)) with (y :: firstn (S n) l). rewrite IH by exact H. reflexivity.
Qed.
Lemma firstn_none {A} (l : list A) n : nth_error l n = None -> firstn (S n) l = firstn n l.
Proof. intros H. apply nth_error_None in H. rewrite !firstn_all2 by lia. reflexivity. Qed.

Definition good_track (rnd : Rnd) (t : DTrack) : Prop := match t with TBit b => recordable b /\ loadable rnd b | _ => False end.

Lemma Forall2_length' {A B} (R : A -> B -> Prop) l l' : Forall2 R l l' -> length l = length l'.
Proof. induction 1; cbn; auto. Qed.
(* one head of one cylinder *)
Lemma load_one rnd scale s h c st s' r :
  (h < 2)%N -> (forall t, nth_error (side s h) c = Some t -> exists b, t = TBit b /\ bt_ch b = mkCh (N.of_nat c) h /\ recordable b /\ loadable rnd b) ->
  (N.of_nat c < 65536)%N -> (r < 4294967296)%N ->
  wf (pl_img st) s' -> res_free (pl_img st) -> pl_clock st = 0%N ->
  pl_rates st = repeat 0%N (length (fst s') + length (snd s')) ->
  (0 < length (fst s') + length (snd s') -> started st) ->
  Forall2 restored (firstn c (side s h)) (side s' h) ->
  exists st' s'', ofold (step_of rnd scale) (flat_map chunks_of match nth_error (side s h) c with Some t => [(r, t)] | None => [] end) st = Ok st' /\
    wf (pl_img st') s'' /\ res_free (pl_img st') /\ pl_clock st' = 0%N /\
    pl_rates st' = repeat 0%N (length (fst s'') + length (snd s'')) /\
    (0 < length (fst s'') + length (snd s'') -> started st') /\
    Forall2 restored (firstn (S c) (side s h)) (side s'' h) /\ side s'' (1 - h) = side s' (1 - h) /\
    pl_cyls st' = (match nth_error (side s h) c with Some _ => set_insert (N.of_nat c) (pl_cyls st) | None => pl_cyls st end) /\
    pl_heads st' = (match nth_error (side s h) c with Some _ => set_insert h (pl_heads st) | None => pl_heads st end).
Proof.
  intros Hh Ht Hc Hr Hwf Hres Hclk Hrates Hrate HF.
  destruct (nth_error (side s h) c) as [t|] eqn:E.
  - destruct (Ht t eq_refl) as (b & -> & Hch & Hrec & Hload).
    assert (Hlen : length (side s' h) = N.to_nat (N.of_nat c)).
    { rewrite Nat2N.id. apply Forall2_length' in HF. rewrite <- HF. rewrite firstn_length.
      assert (c < length (side s h)) by (apply nth_error_Some; congruence). lia. }
    destruct (load_track rnd scale r (N.of_nat c) h b st s' Hch Hc Hh Hr Hrec Hload Hwf Hres Hlen)
      as (st' & b' & E1 & W & R & Rs & C & Rt & Rn & Cy & He).
    exists st', (append_to s' h (TBit b')).
    split; [cbn [flat_map chunks_of snd fst]; rewrite app_nil_r; exact E1|].
    split; [exact W|]. split; [exact Rs|]. split; [congruence|].
    assert (L : length (fst (append_to s' h (TBit b'))) + length (snd (append_to s' h (TBit b'))) = length (fst s') + length (snd s') + 1).
    { assert (E0 : h = 0%N \/ h = 1%N) by lia. destruct E0 as [-> | ->]; cbn [append_to fst snd]; rewrite app_length; cbn [length]; lia. }
    rewrite L. split; [rewrite Rt, Hrates, Hclk; symmetry; exact (repeat_app 0%N (length (fst s') + length (snd s')) 1)|].
    split; [intros _; exact Rn|].
    split; [rewrite (firstn_snoc _ _ _ E), append_side by exact Hh; apply Forall2_app; [exact HF|constructor; [exact R|constructor]]|].
    split; [|split; assumption].
    assert (E0 : h = 0%N \/ h = 1%N) by lia. destruct E0 as [-> | ->]; reflexivity.
  - exists st, s'. split; [reflexivity|]. rewrite (firstn_none _ _ E). repeat (split; [assumption|]). repeat (split; [reflexivity|]). reflexivity.
Qed.

Lemma seen_insert_cyl n : set_insert (N.of_nat n) (map N.of_nat (seq 0 n)) = map N.of_nat (seq 0 (S n)).
Proof.
  unfold set_insert. replace (existsb _ _) with false.
  - rewrite seq_S, map_app. reflexivity.
  - symmetry. apply not_true_is_false. intros H. apply existsb_exists in H as (x & Hx & Hq). apply N.eqb_eq in Hq. subst x.
    apply in_map_iff in Hx as (k & Hk & Hi). apply in_seq in Hi. lia.
Qed.
Lemma seen_again_cyl n : set_insert (N.of_nat n) (map N.of_nat (seq 0 (S n))) = map N.of_nat (seq 0 (S n)).
Proof.
  unfold set_insert. replace (existsb _ _) with true; [reflexivity|]. symmetry. apply existsb_exists. exists (N.of_nat n). split.
  - apply in_map, in_seq. lia.
  - apply N.eqb_refl.
Qed.

Lemma load_cylinder rnd scale d s rates : wf d s -> labelled s ->
  Forall (good_track rnd) (fst s) -> Forall (good_track rnd) (snd s) -> Forall (fun r => r < 4294967296)%N rates ->
  forall n st s', n < Nat.max (length (fst s)) (length (snd s)) -> (N.of_nat n < 65536)%N -> loaded s n st s' ->
  exists st' s'', ofold (step_of rnd scale) (flat_map chunks_of (pair_at d rates n)) st = Ok st' /\ loaded s (S n) st' s''.
Proof.
  intros [_ [M0 M1]] Hlab G0 G1 Hrates n st s' Hn Hn16 (W & R & F0 & F1 & C & Rt & Rn & Cy & He).
  assert (Hok : forall h t, (h < 2)%N -> nth_error (side s h) n = Some t ->
     exists b, t = TBit b /\ bt_ch b = mkCh (N.of_nat n) h /\ recordable b /\ loadable rnd b).
  { intros h t Hh E. destruct (Hlab n h t Hh E) as (b & -> & Hch). exists b. split; [reflexivity|]. split; [exact Hch|].
    assert (good_track rnd (TBit b)) as G; [|exact G].
    apply nth_error_In in E. assert (E0 : h = 0%N \/ h = 1%N) by lia.
    destruct E0 as [-> | ->]; cbn [side] in E; [rewrite Forall_forall in G0; auto|rewrite Forall_forall in G1; auto]. }
  destruct (pair_in_spec d rates _ _ n M0 Hrates) as (r0 & Hr0 & P0).
  destruct (pair_in_spec d rates _ _ n M1 Hrates) as (r1 & Hr1 & P1).
  unfold pair_at. rewrite P0, P1, flat_map_app, ofold_app.
  destruct (load_one rnd scale s 0 n st s' r0 ltac:(reflexivity) (fun t => Hok 0%N t ltac:(reflexivity)) Hn16 Hr0 W R C Rt Rn F0)
    as (st1 & s1 & E1 & W1 & R1 & C1 & Rt1 & Rn1 & F1' & Sd1 & Cy1 & He1).
  cbn [side] in E1. rewrite E1. cbn [obind]. change (1 - 0)%N with 1%N in Sd1. cbn [side] in Sd1.
  assert (F1'' : Forall2 restored (firstn n (side s 1)) (side s1 1)) by (cbn [side]; rewrite Sd1; exact F1).
  destruct (load_one rnd scale s 1 n st1 s1 r1 ltac:(reflexivity) (fun t => Hok 1%N t ltac:(reflexivity)) Hn16 Hr1 W1 R1 C1 Rt1 Rn1 F1'')
    as (st2 & s2 & E2 & W2 & R2 & C2 & Rt2 & Rn2 & F2' & Sd2 & Cy2 & He2).
  cbn [side] in E2. rewrite E2. change (1 - 1)%N with 0%N in Sd2. cbn [side] in Sd2, Cy1, Cy2, He1, He2, F1', F2'.
  exists st2, s2. split; [reflexivity|].
  unfold loaded. split; [exact W2|]. split; [exact R2|]. split; [rewrite Sd2; exact F1'|]. split; [exact F2'|].
  split; [exact C2|]. split; [exact Rt2|]. split; [exact Rn2|].
  assert (E0 : nth_error (fst s) n <> None \/ nth_error (snd s) n <> None).
  { destruct (Nat.max_spec (length (fst s)) (length (snd s))) as [[_ E]|[_ E]]; rewrite E in Hn; [right|left]; apply nth_error_Some; exact Hn. }
  split.
  - rewrite Cy2, Cy1, Cy.
    destruct (nth_error (fst s) n) eqn:Ea, (nth_error (snd s) n) eqn:Eb; rewrite ?seen_insert_cyl, ?seen_again_cyl; try reflexivity.
    destruct E0; congruence.
  - rewrite He2, He1, He.
    assert (Z : forall l : list DTrack, nth_error l n <> None -> l <> []) by (intros [|] H; [destruct n; cbn in H; congruence|discriminate]).
    destruct n as [|n].
    + cbn [seen_heads]. destruct (fst s), (snd s); reflexivity.
    + cbn [seen_heads]. destruct (nth_error (fst s) (S n)) eqn:Ea, (nth_error (snd s) (S n)) eqn:Eb.
      * destruct (fst s); [discriminate|]. destruct (snd s); [discriminate|]. reflexivity.
      * destruct (fst s); [discriminate|]. destruct (snd s); reflexivity.
      * destruct (snd s); [discriminate|]. destruct (fst s); reflexivity.
      * destruct E0; congruence.
Qed.

Lemma load_cylinders rnd scale d s rates : wf d s -> labelled s ->
  Forall (good_track rnd) (fst s) -> Forall (good_track rnd) (snd s) -> Forall (fun r => r < 4294967296)%N rates ->
  forall st s0, loaded s 0 st s0 ->
  forall n, n <= Nat.max (length (fst s)) (length (snd s)) -> (N.of_nat n <= 65536)%N ->
  exists st' s', ofold (step_of rnd scale) (flat_map chunks_of (flat_map (pair_at d rates) (seq 0 n))) st = Ok st' /\ loaded s n st' s'.
Proof.
  intros Hwf Hlab G0 G1 Hr st s0 H0. induction n as [|n IH]; intros Hn Hn16.
  - exists st, s0. split; [reflexivity|exact H0].
  - destruct IH as (st1 & s1 & E1 & L1); [lia|lia|].
    destruct (load_cylinder rnd scale d s rates Hwf Hlab G0 G1 Hr n st1 s1 ltac:(lia) ltac:(lia) L1) as (st2 & s2 & E2 & L2).
    exists st2, s2. split; [|exact L2].
    rewrite seq_S, flat_map_app, flat_map_app, ofold_app. rewrite E1. cbn [obind]. cbn [plus flat_map]. rewrite app_nil_r. exact E2.
Qed.
