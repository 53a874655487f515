(* Layout_proofs.v - adding bitstream tracks one after the other: used for the loaders of bitstream files. *)
From Verif Require Import Base Base_lemmas BitRing_proofs Mfm_spec
  Chs_model BitRing_model Mfm_model Types_model System34_model MetaSector_model BitStream_model DiskImage_model DiskImage_spec DiskImage_proofs
  Format_model Raw_model Format2_proofs TreeMap_proofs Pce_spec Pce3_proofs F86_model F86_spec F86_proofs Layout_spec.
From Coq Require Import Lia.

(* the arguments of one call of add_track_bitstream *)
Record AddJob : Set := mkJob { aj_ch : DiskCh; aj_data : list N; aj_weak : option (list N); aj_ct : option nat; aj_detect : bool }.
Definition job_track (rnd : Rnd) (j : AddJob) : outcome BitTrack :=
  bt_new (rnd_bit rnd) (aj_ch j) (aj_data j) (aj_weak j) (aj_ct j) (aj_detect j).
Definition add_job (rnd : Rnd) (d : DiskImage) (j : AddJob) : outcome DiskImage :=
  let (d, r) := add_track_bitstream rnd d (aj_ch j) (aj_data j) (aj_weak j) (aj_ct j) (aj_detect j) in
  let! _ := r in Ok d.
Fixpoint add_jobs (rnd : Rnd) (jobs : list AddJob) (d : DiskImage) : outcome DiskImage :=
  match jobs with [] => Ok d | j :: js => let! d := add_job rnd d j in add_jobs rnd js d end.

Definition grow (s : Heads) (ts : list BitTrack) : Heads := (fst s ++ on_head 0 ts, snd s ++ on_head 1 ts).
Lemma bt_new_ch rnd ch data w ct dw t : bt_new rnd ch data w ct dw = Ok t -> bt_ch t = ch.
Proof. intros E. pose proof (new_any_ch _ _ ch _ _ _ _ _ E) as E'. rewrite E in E'. injection E' as ->. reflexivity. Qed.
Lemma add_job_ok rnd d s j t : wf d s -> res_free d -> (ch_h (aj_ch j) < 2)%N -> job_track rnd j = Ok t ->
  exists d', add_job rnd d j = Ok d' /\ wf d' (append_to s (ch_h (aj_ch j)) (TBit t)) /\ res_free d' /\ di_res d' = [RBitStream] /\ di_geom d' = di_geom d.
Proof.
  intros Hwf [Hmul Hres] Hh Ht. unfold add_job, add_track_bitstream.
  replace (2 <=? ch_h (aj_ch j))%N with false by (symmetry; apply N.leb_gt; exact Hh).
  assert (Hrej : res_rejects d RBitStream = false) by (unfold res_rejects; rewrite Hmul; destruct Hres as [-> | ->]; reflexivity).
  rewrite Hrej. unfold job_track in Ht. rewrite Ht. cbn [obind].
  set (d1 := push_track (with_res d (res_insert RBitStream (di_res d))) (ch_h (aj_ch j)) (TBit t)).
  assert (Hres2 : di_res d1 = [RBitStream]) by (unfold d1, push_track; cbn; destruct Hres as [-> | ->]; reflexivity).
  exists d1. split; [reflexivity|]. split; [apply push_wf; [apply with_res_wf; exact Hwf|exact Hh]|]. split; [split; [exact Hmul|right; exact Hres2]|].
  split; [exact Hres2|]. reflexivity.
Qed.
Lemma add_job_fails rnd d j : (ch_h (aj_ch j) < 2)%N -> res_free d ->
  match job_track rnd j with Ok _ => True | Err e => add_job rnd d j = Err e | Panic => add_job rnd d j = Panic end.
Proof.
  intros Hh [Hmul Hres]. unfold add_job, add_track_bitstream.
  replace (2 <=? ch_h (aj_ch j))%N with false by (symmetry; apply N.leb_gt; exact Hh).
  assert (Hrej : res_rejects d RBitStream = false) by (unfold res_rejects; rewrite Hmul; destruct Hres as [-> | ->]; reflexivity).
  rewrite Hrej. unfold job_track. destruct (bt_new _ _ _ _ _ _); cbn [obind]; auto.
Qed.
Lemma grow_step s h t : (h < 2)%N -> ch_h (bt_ch t) = h -> append_to s h (TBit t) = grow s [t].
Proof.
  intros H E. unfold grow, on_head. cbn [filter map tk_ch]. rewrite E.
  assert (D : h = 0%N \/ h = 1%N) by lia. destruct D as [-> | ->]; cbn [append_to]; [change (0 =? 0)%N with true; change (0 =? 1)%N with false|change (1 =? 1)%N with true; change (1 =? 0)%N with false];
    cbn [map]; rewrite app_nil_r; reflexivity.
Qed.
Lemma grow_app s a b : grow (grow s a) b = grow s (a ++ b).
Proof. unfold grow, on_head. cbn [fst snd]. rewrite !filter_app, !map_app, !app_assoc. reflexivity. Qed.
Lemma add_jobs_ok rnd : forall jobs ts d s, Forall2 (fun j t => (ch_h (aj_ch j) < 2)%N /\ job_track rnd j = Ok t) jobs ts -> wf d s -> res_free d ->
  exists d', add_jobs rnd jobs d = Ok d' /\ wf d' (grow s ts) /\ res_free d' /\ (jobs <> [] -> di_res d' = [RBitStream]) /\ di_geom d' = di_geom d.
Proof.
  induction jobs as [|j jobs IH]; intros ts d s F Hwf Hres; inversion F as [|? t ? ts' [Hh Ht] F']; subst.
  - exists d. split; [reflexivity|]. split; [|split; [exact Hres|split; [congruence|reflexivity]]].
    unfold grow, on_head. cbn [filter map]. rewrite !app_nil_r. destruct s. exact Hwf.
  - destruct (add_job_ok rnd d s j t Hwf Hres Hh Ht) as (d1 & E & W & R & R2 & G). cbn [add_jobs]. rewrite E. cbn [obind].
    rewrite (grow_step s _ t Hh) in W by (unfold job_track in Ht; apply bt_new_ch in Ht; rewrite Ht; reflexivity).
    destruct (IH ts' d1 _ F' W R) as (d2 & E2 & W2 & R3 & R4 & G2). exists d2. split; [exact E2|].
    rewrite grow_app in W2. split; [exact W2|]. split; [exact R3|]. split; [|congruence].
    intros _. destruct jobs as [|j' jobs]; [|apply R4; discriminate]. inversion F'; subst. cbn in E2. injection E2 as <-. exact R2.
Qed.

(* interleaved heads *)
Lemma on_head_single ts : Forall (fun t => ch_h (bt_ch t) = 0%N) ts -> on_head 0 ts = map TBit ts /\ on_head 1 ts = [].
Proof.
  unfold on_head. induction ts as [|t ts IH]; intros F; [split; reflexivity|]. inversion F as [|? ? H F']; subst. destruct (IH F') as [A B].
  cbn [filter]. rewrite H. change (0 =? 0)%N with true. change (0 =? 1)%N with false. cbn [map]. rewrite A, B. split; reflexivity.
Qed.
Lemma on_head_two : forall n ts i0, length ts = n -> Nat.even i0 = true -> (forall i t, nth_error ts i = Some t -> ch_h (bt_ch t) = N.of_nat ((i0 + i) mod 2)) ->
  forall c, nth_error (on_head 0 ts) c = option_map TBit (nth_error ts (2 * c)) /\ nth_error (on_head 1 ts) c = option_map TBit (nth_error ts (2 * c + 1)).
Proof.
  induction n as [n IH] using lt_wf_ind. intros ts i0 Ln Ev H c.
  assert (E0 : i0 mod 2 = 0) by (apply Nat.even_spec in Ev as [q ->]; rewrite Nat.mul_comm; apply Nat.mod_mul; discriminate).
  destruct ts as [|a [|b ts]].
  - unfold on_head. cbn [filter map]. split; [destruct c; reflexivity|]. destruct c; [reflexivity|]. replace (2 * S c + 1) with (S (S (2 * c + 1))) by lia. reflexivity.
  - pose proof (H 0 a eq_refl) as Ha. rewrite Nat.add_0_r, E0 in Ha. unfold on_head. cbn [filter]. rewrite Ha. change (N.of_nat 0) with 0%N.
    change (0 =? 0)%N with true. change (0 =? 1)%N with false. cbn [map]. destruct c as [|c]; [split; reflexivity|].
    replace (2 * S c) with (S (S (2 * c))) by lia. split; [destruct c; reflexivity|reflexivity].
  - pose proof (H 0 a eq_refl) as Ha. pose proof (H 1 b eq_refl) as Hb. rewrite Nat.add_0_r, E0 in Ha.
    assert (E1 : (i0 + 1) mod 2 = 1) by (rewrite Nat.add_mod, E0 by discriminate; reflexivity). rewrite E1 in Hb.
    change (N.of_nat 0) with 0%N in Ha. change (N.of_nat 1) with 1%N in Hb.
    unfold on_head. cbn [filter]. rewrite Ha, Hb. change (0 =? 0)%N with true. change (0 =? 1)%N with false. change (1 =? 0)%N with false. change (1 =? 1)%N with true.
    cbn [map]. fold (on_head 0 ts). fold (on_head 1 ts). destruct c as [|c]; [split; reflexivity|]. replace (2 * S c) with (S (S (2 * c))) by lia. cbn [Nat.add nth_error].
    assert (Ln' : length ts < n) by (cbn in Ln; lia).
    apply (IH (length ts) Ln' ts (S (S i0)) eq_refl Ev). intros i t Hi. specialize (H (S (S i)) t Hi). rewrite H. do 2 f_equal. lia.
Qed.
Lemma on_head_two_length : forall k ts, length ts = 2 * k -> (forall i t, nth_error ts i = Some t -> ch_h (bt_ch t) = N.of_nat (i mod 2)) ->
  length (on_head 0 ts) = k /\ length (on_head 1 ts) = k.
Proof.
  intros k ts L H.
  assert (G : forall c, (nth_error (on_head 0 ts) c = None <-> k <= c) /\ (nth_error (on_head 1 ts) c = None <-> k <= c)).
  { intros c. destruct (on_head_two _ ts 0 eq_refl eq_refl H c) as [A B]. rewrite A, B.
    assert (O : forall (o : option BitTrack), option_map TBit o = None <-> o = None) by (intros [|]; cbn; split; congruence).
    rewrite !O, !nth_error_None, L. lia. }
  assert (Q : forall l : list DTrack, (forall c, nth_error l c = None <-> k <= c) -> length l = k).
  { intros l Hl. destruct (Nat.lt_trichotomy (length l) k) as [A|[A|A]]; [|exact A|].
    - assert (B : nth_error l (length l) = None) by (apply nth_error_None; lia). apply Hl in B. lia.
    - assert (B : nth_error l k = None) by (apply Hl; lia). apply nth_error_None in B. lia. }
  split; apply Q; intros c; apply G.
Qed.
