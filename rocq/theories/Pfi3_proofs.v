(* Pfi3_proofs.v - PFI files: the tracks in order. *)
From Verif Require Import Base Base_lemmas Chs_model BitRing_model Mfm_model Types_model System34_model MetaSector_model BitStream_model
  DiskImage_model DiskImage_spec DiskImage_proofs Raw_model Pce_model Pce_proofs Huff_proofs Pll_model Flux_model Flux_spec Flux_proofs Pfi_model Pfi_spec Pfi_proofs Pfi2_proofs.
From Coq Require Import Lia.
Import ListNotations.
Local Open Scope nat_scope.

Lemma flux_track_ch ch bs : tk_ch (flux_track ch bs) = ch.
Proof. unfold flux_track, analyze_revolutions. repeat (match goal with |- context [match ?x with _ => _ end] => destruct x end; try reflexivity). Qed.
Lemma insert_seq k m : k <= m -> set_insert (N.of_nat k) (map N.of_nat (seq 0 m)) = map N.of_nat (seq 0 (Nat.max m (S k))).
Proof.
  intros H. unfold set_insert. destruct (existsb (N.eqb (N.of_nat k)) (map N.of_nat (seq 0 m))) eqn:E.
  - apply existsb_exists in E as (x & I & E). apply N.eqb_eq in E. subst x. apply in_map_iff in I as (j & E & I). apply Nnat.Nat2N.inj in E. subst j. apply in_seq in I. rewrite Nat.max_l by lia. reflexivity.
  - assert (m = k).
    { destruct (Nat.eq_dec m k) as [D|D]; [exact D|]. exfalso. assert (F : existsb (N.eqb (N.of_nat k)) (map N.of_nat (seq 0 m)) = true); [|congruence].
      apply existsb_exists. exists (N.of_nat k). split; [|apply N.eqb_refl]. apply in_map. apply in_seq. lia. }
    subst m. rewrite Nat.max_r by lia. rewrite seq_snoc, map_app. reflexivity.
Qed.
Lemma cyl_step n heads : heads = 1 \/ heads = 2 -> n / heads <= (n + heads - 1) / heads /\ Nat.max ((n + heads - 1) / heads) (S (n / heads)) = (S n + heads - 1) / heads.
Proof.
  intros [-> | ->].
  - rewrite !Nat.div_1_r. lia.
  - replace (n + 2 - 1) with (n + 1) by lia. replace (S n + 2 - 1) with (n + 1 * 2) by lia. rewrite Nat.div_add by discriminate.
    pose proof (Nat.div_mod n 2 ltac:(discriminate)) as D. pose proof (Nat.mod_upper_bound n 2 ltac:(discriminate)) as U.
    pose proof (Nat.div_mod (n + 1) 2 ltac:(discriminate)) as D'. pose proof (Nat.mod_upper_bound (n + 1) 2 ltac:(discriminate)) as U'. lia.
Qed.
Lemma head_step n heads : heads = 1 \/ heads = 2 -> n mod heads <= Nat.min heads n /\ Nat.max (Nat.min heads n) (S (n mod heads)) = Nat.min heads (S n).
Proof.
  intros [-> | ->].
  - rewrite Nat.mod_1_r. lia.
  - destruct n as [|[|n]]; [cbn; lia|cbn; lia|]. pose proof (Nat.mod_upper_bound (S (S n)) 2 ltac:(discriminate)). lia.
Qed.
Record state (heads n : nat) (F : nat -> DTrack) (past : list (N * list Rev)) (st : PfiLoad) (sm : Heads) : Prop := mkState {
  ps_wf : wf (pf_img st) sm; ps_free : flux_free (pf_img st); ps_laid : laid heads n F sm;
  ps_cyls : pf_cyls st = map N.of_nat (seq 0 ((n + heads - 1) / heads)); ps_heads : pf_heads st = map N.of_nat (seq 0 (Nat.min heads n)); ps_past : pf_past st = past }.
Lemma track_step dec heads n F past st sm t revs bs : heads = 1 \/ heads = 2 -> state heads n F past st sm -> valid_track t ->
  mkCh (pt_cyl t) (pt_head t) = ch_at heads n -> pfi_revolutions (pt_data t) (pt_index t) revs ->
  dec past (pt_clock t) (ch_at heads n) (synthesize revs) = Ok bs -> F n = flux_track (ch_at heads n) bs ->
  (forall i, i < n -> tk_ch (F i) = ch_at heads i) -> (N.of_nat (S n) <= 65535 * N.of_nat heads)%N ->
  exists st', ofold (stepc dec) (track_chunks t) st = Ok st' /\ state heads (S n) F (past ++ [(pt_clock t, revs)]) st' (append_to sm (N.of_nat (n mod heads)) (F n)).
Proof.
  intros Hh [W Fr La Cy He Pa] [(A1 & A2 & A3) (U1 & U2) _] Hch HR HD HFn HF Hn. unfold track_chunks.
  assert (Ec : pt_cyl t = N.of_nat (n / heads)) by (apply (f_equal ch_c) in Hch; exact Hch). assert (Eh : pt_head t = N.of_nat (n mod heads)) by (apply (f_equal ch_h) in Hch; exact Hch).
  assert (Hmod : n mod heads < 2) by (destruct Hh as [-> | ->]; [rewrite Nat.mod_1_r; lia|apply Nat.mod_upper_bound; discriminate]).
  assert (Hdiv : (N.of_nat (n / heads) < 65536)%N).
  { clear - Hn Hh. destruct Hh as [-> | ->]; [rewrite Nat.div_1_r; lia|]. pose proof (Nat.div_mod n 2 ltac:(discriminate)). lia. }
  rewrite aside_fold by exact (proj1 A1). cbn [app ofold]. rewrite trak_step by exact U1. cbn [obind].
  rewrite aside_fold by exact (proj1 A2). cbn [app ofold]. unfold stepc at 1. cbn [fst snd]. change (pfi_type INDX) with PfiIndex. cbn [pfi_step obind pf_img pf_clock pf_cyls pf_heads pf_past].
  rewrite be32s_all by exact U2. rewrite aside_fold by exact (proj1 A3). cbn [ofold]. unfold stepc. cbn [fst snd]. change (pfi_type DATA) with PfiTrackData.
  cbn [pfi_step pf_img pf_index pf_clock pf_cyls pf_heads pf_past]. rewrite (data_ok _ _ _ HR). cbn [obind].
  destruct (cyl_step n heads Hh) as [C1 C2]. destruct (head_step n heads Hh) as [D1 D2].
  assert (Ei : set_insert (as_u8 (pt_head t)) (pf_heads st) = map N.of_nat (seq 0 (Nat.min heads (S n)))).
  { rewrite He, Eh. unfold as_u8. rewrite N.mod_small by lia. rewrite insert_seq by exact D1. rewrite D2. reflexivity. }
  assert (Ej : set_insert (as_u16 (pt_cyl t)) (pf_cyls st) = map N.of_nat (seq 0 ((S n + heads - 1) / heads))).
  { rewrite Cy, Ec. unfold as_u16. rewrite N.mod_small by exact Hdiv. rewrite insert_seq by exact C1. rewrite C2. reflexivity. }
  rewrite Ei, Ej, map_length, seq_length.
  assert (Em : as_u8 (N.of_nat (Nat.min heads (S n))) = N.of_nat (Nat.min heads (S n))) by (apply N.mod_small; destruct Hh; subst heads; lia). rewrite Em.
  rewrite (next_ch_ok _ sm heads n F W Hh La HF) by lia. cbn [obind]. rewrite Pa.
  destruct (flux_add_ok (dec past (pt_clock t)) (pf_img st) sm (ch_at heads n) revs bs W Fr (ch_at_head heads n Hh) HD) as (d' & -> & W' & Fr' & _). cbn [obind].
  eexists. split; [reflexivity|]. rewrite HFn. constructor; cbn [pf_img pf_cyls pf_heads pf_past].
  - exact W'.
  - exact Fr'.
  - rewrite <- HFn. apply laid_snoc; assumption.
  - reflexivity.
  - reflexivity.
  - reflexivity.
Qed.
Lemma tracks_fold dec heads (ts : list TrackDesc) (revss : list (list Rev)) (bs : nat -> list BitTrack) : heads = 1 \/ heads = 2 -> length revss = length ts ->
  (N.of_nat (length ts) <= 65535 * N.of_nat heads)%N ->
  (forall i t revs, nth_error ts i = Some t -> nth_error revss i = Some revs ->
     valid_track t /\ mkCh (pt_cyl t) (pt_head t) = ch_at heads i /\ pfi_revolutions (pt_data t) (pt_index t) revs /\
     dec (firstn i (combine (map pt_clock ts) revss)) (pt_clock t) (ch_at heads i) (synthesize revs) = Ok (bs i)) ->
  forall n st sm, state heads n (fun i => flux_track (ch_at heads i) (bs i)) (firstn n (combine (map pt_clock ts) revss)) st sm -> n <= length ts ->
  exists st' sm', ofold (stepc dec) (flat_map track_chunks (skipn n ts)) st = Ok st' /\
    state heads (length ts) (fun i => flux_track (ch_at heads i) (bs i)) (combine (map pt_clock ts) revss) st' sm'.
Proof.
  intros Hh Hl Hn H n. remember (length ts - n) as k eqn:Ek. revert n Ek. induction k as [|k IH]; intros n Ek st sm Sta Hle.
  - assert (n = length ts) by lia. subst n. rewrite skipn_all. cbn [flat_map ofold]. exists st, sm. split; [reflexivity|].
    rewrite firstn_all2 in Sta by (rewrite combine_length, map_length; lia). exact Sta.
  - destruct (nth_error ts n) as [t|] eqn:Et; [|apply nth_error_None in Et; lia]. destruct (nth_error revss n) as [revs|] eqn:Er; [|apply nth_error_None in Er; lia].
    destruct (H n t revs Et Er) as (V & P1 & P2 & P3).
    assert (Es : skipn n ts = t :: skipn (S n) ts).
    { clear - Et. revert ts Et. induction n as [|n IH]; intros ts Et; destruct ts; try discriminate; [injection Et as ->; reflexivity|]. exact (IH ts Et). }
    assert (Ep : firstn (S n) (combine (map pt_clock ts) revss) = firstn n (combine (map pt_clock ts) revss) ++ [(pt_clock t, revs)]).
    { assert (Q : nth_error (combine (map pt_clock ts) revss) n = Some (pt_clock t, revs)).
      { clear - Et Er. revert ts revss Et Er. induction n as [|n IH]; intros ts revss Et Er; destruct ts, revss; try discriminate; [injection Et as ->; injection Er as ->; reflexivity|]. exact (IH ts revss Et Er). }
      clear - Q. revert n Q. generalize (combine (map pt_clock ts) revss). intros l n. revert l. induction n as [|n IH]; intros l Q; destruct l; try discriminate; [injection Q as ->; reflexivity|].
      change (p :: firstn (S n) l = p :: (firstn n l ++ [(pt_clock t, revs)])). f_equal. exact (IH l Q). }
    destruct (track_step dec heads n _ _ st sm t revs (bs n) Hh Sta V P1 P2 P3 eq_refl (fun i _ => flux_track_ch _ _) ltac:(lia)) as (st1 & E1 & S1).
    rewrite <- Ep in S1. destruct (IH (S n) ltac:(lia) st1 _ S1 ltac:(lia)) as (st2 & sm2 & E2 & S2). exists st2, sm2. split; [|exact S2].
    rewrite Es. cbn [flat_map]. rewrite ofold_app, E1. exact E2.
Qed.
