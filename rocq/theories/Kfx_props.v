(* Kfx_props.v - C66: the KryoFlux stream loader. *)
From Verif Require Import Base Base_lemmas Chs_model BitRing_model Mfm_model Types_model System34_model MetaSector_model BitStream_model DiskImage_model DiskImage_spec DiskImage_proofs Raw_model F86_model Hxc_model Flux_model Flux_spec Flux_proofs Pll_model Kfx_model Kfx_spec Kfx_proofs Kfx2_proofs Kfx3_proofs.
From Coq Require Import Lia.
Import ListNotations.
Local Open Scope nat_scope.

(* A stream whose hardware status is fine and that reaches two index positions gives its complete revolutions: the transitions between
   neighbouring index positions, each with the difference of the index counters; and the texts with their places. *)
Theorem C66_stream : forall bs rest, Forall valid_block bs -> spaced (indexes bs) -> Forall hw_ok bs -> small_times bs -> 2 <= reached counted bs ->
  exists revs, kfx_stream (stream_bytes bs rest) = Ok (texts 0 bs, revs) /\ stream_revolutions counted bs revs.
Proof. exact stream_ok. Qed.
(* Without overflow marks and three-byte transitions before it, a position is the number of in-band bytes, as the format defines it. *)
Lemma same_sizes bs : Forall (fun b => match b with BFlux3 _ _ | BOvl16 => False | _ => True end) bs ->
  total counted bs = total in_band bs /\ forall pos ovl, transitions counted pos ovl bs = transitions in_band pos ovl bs.
Proof.
  induction 1 as [|b bs Hb F [IH1 IH2]]; [split; [reflexivity|intros; reflexivity]|]. assert (E : counted b = in_band b) by (destruct b; reflexivity || contradiction).
  split; [unfold total in *; cbn [fold_right]; rewrite E, IH1; reflexivity|]. intros pos ovl. cbn [transitions]. rewrite E. destruct b; rewrite ?IH2; reflexivity.
Qed.
Theorem C66_stream_exact : forall bs rest, Forall valid_block bs -> spaced (indexes bs) -> Forall hw_ok bs -> small_times bs -> 2 <= reached in_band bs ->
  Forall (fun b => match b with BFlux3 _ _ | BOvl16 => False | _ => True end) bs ->
  exists revs, kfx_stream (stream_bytes bs rest) = Ok (texts 0 bs, revs) /\ stream_revolutions in_band bs revs.
Proof.
  intros bs rest V Sp Hw Sm H2 F. destruct (same_sizes bs F) as [E1 E2]. unfold reached in H2. rewrite <- E1 in H2. fold (reached counted bs) in H2.
  destruct (stream_ok bs rest V Sp Hw Sm H2) as (revs & A & B). exists revs. split; [exact A|]. unfold stream_revolutions in *. rewrite E1, E2 in B. exact B.
Qed.
Lemma small_by bs : forallb (fun x => (snd x <? 2 ^ 32)%N) (transitions counted 0 0 bs) = true -> small_times bs.
Proof. intros H. apply Forall_forall. intros x Hx. rewrite forallb_forall in H. apply N.ltb_lt. exact (H x Hx). Qed.
(* With one of them it is not. *)
Definition le4 (v : N) : list N := [v; 0; 0; 0]%N.
Definition ix (pos counter : N) : block := BIndex [12; 0]%N (le4 pos) (le4 0) (le4 counter).
Definition shifted : list block := [BFlux3 0 50; BFlux1 101; BFlux1 102; BFlux1 103; BFlux1 104; BFlux1 105; BFlux1 106; BFlux1 107; ix 3 0; ix 6 100].
Lemma shifted_ok : Forall valid_block shifted /\ spaced (indexes shifted) /\ Forall hw_ok shifted /\ small_times shifted /\ 2 <= reached counted shifted.
Proof.
  split; [repeat constructor; cbn; try lia; try reflexivity|]. split; [|split; [repeat constructor|split; [exact (small_by shifted eq_refl)|vm_compute; apply le_n]]].
  intros i a b Ea Eb. destruct i as [|[|i]]; [|discriminate Eb|cbn in Ea; destruct i; discriminate]. injection Ea as <-. injection Eb as <-. cbn. lia.
Qed.
Theorem C66_positions_refuted : ~ (forall bs rest t revs, Forall valid_block bs -> spaced (indexes bs) -> Forall hw_ok bs -> small_times bs ->
  kfx_stream (stream_bytes bs rest) = Ok (t, revs) -> stream_revolutions in_band bs revs).
Proof.
  intros H. destruct shifted_ok as (V & Sp & Hw & Sm & _). specialize (H shifted [] [] [([104; 105; 106]%N, 100%N)] V Sp Hw Sm ltac:(vm_compute; reflexivity)). destruct H as [_ X].
  specialize (X 0 (3, 0)%N (6, 100)%N ltac:(cbn; lia) eq_refl eq_refl). vm_compute in X. discriminate.
Qed.
(* the conditions of C66_stream_exact, C66_incomplete and C66_hardware_error can be met *)
Definition plain : list block := [BStreamInfo [8; 0; 0; 0; 0; 0; 5; 0; 0; 0]; BKfInfo [9; 0] [115; 99; 107; 61; 50; 10]; BNop1; BFlux1 101; BFlux2 1 102; BNop2 7; BFlux1 103; BNop3 0 0; BFlux1 104; ix 2 4; ix 5 104; ix 9 205; BStreamEnd [8; 0; 9; 0; 0; 0] (le4 0)]%N.
Example plain_ok : Forall valid_block plain /\ spaced (indexes plain) /\ Forall hw_ok plain /\ small_times plain /\ reached in_band plain = 3 /\ Forall (fun b => match b with BFlux3 _ _ | BOvl16 => False | _ => True end) plain /\
  kfx_stream (stream_bytes plain [1; 2; 3]%N) = Ok ([(0, [115; 99; 107; 61; 50]%N)], [([358]%N, 100%N); ([103]%N, 101%N)]).
Proof.
  split; [repeat constructor; cbn; try lia; try reflexivity; try (intros X; repeat destruct X as [X|X]; try discriminate; contradiction)|]. split; [|split; [repeat (constructor; [cbn; try exact I; try lia|]); constructor|split; [exact (small_by plain eq_refl)|split; [vm_compute; reflexivity|split; [repeat constructor|vm_compute; reflexivity]]]]].
  intros i a b Ea Eb. destruct i as [|[|[|i]]]; [| |discriminate Eb|cbn in Ea; destruct i; discriminate]; injection Ea as <-; injection Eb as <-; cbn; lia.
Qed.
Definition one_index : list block := [BFlux1 101; BFlux1 102; ix 1 4; ix 40 104; BFlux1 103].
Example one_index_ok : Forall valid_block one_index /\ spaced (indexes one_index) /\ Forall hw_ok one_index /\ small_times one_index /\ reached counted one_index = 1.
Proof.
  split; [repeat constructor; cbn; try lia; try reflexivity|]. split; [|split; [repeat constructor|split; [exact (small_by one_index eq_refl)|vm_compute; reflexivity]]].
  intros i a b Ea Eb. destruct i as [|[|i]]; [|discriminate Eb|cbn in Ea; destruct i; discriminate]; injection Ea as <-; injection Eb as <-; cbn; lia.
Qed.
(* A stream that reaches one index position only has no complete revolution. *)
Theorem C66_incomplete : forall bs rest, Forall valid_block bs -> spaced (indexes bs) -> Forall hw_ok bs -> small_times bs -> reached counted bs = 1 ->
  kfx_stream (stream_bytes bs rest) = Err IncompatibleImage.
Proof. intros bs rest V Sp Hw Sm H1. destruct (stream_result bs rest V Sp Hw Sm) as (s & _ & K & _ & E). rewrite E, K, H1. reflexivity. Qed.
(* A hardware error reported in the stream is an error. *)
Theorem C66_hardware_error : forall bs rest, Forall valid_block bs -> small_times bs -> ~ Forall hw_ok bs -> kfx_stream (stream_bytes bs rest) = Err ImageCorruptError.
Proof.
  intros bs rest V Sm Hn. pose proof (stream_len bs rest V) as Len. unfold kfx_stream. rewrite scan_stream by (try assumption; lia). cbn [obind].
  rewrite read_stream by (try assumption; lia). destruct (beff_ok (ki_offsets (fold_left bscan bs (mkKI [] [] None))) bs (mkKR 0 0 [] [] 0 0 []) 0%N eq_refl Sm) as [[E _]|(s & _ & X & _)]; [|contradiction].
  rewrite E. reflexivity.
Qed.
(* A file that does not end with an end-of-file block is rejected. *)
Theorem C66_truncated : forall file, bytes_ok file = true -> (forall bs rest, Forall valid_block bs -> file <> stream_bytes bs rest) -> exists e, kfx_stream file = Err e.
Proof.
  intros file Hb H. unfold kfx_stream. destruct (kfx_scan (S (length file)) file (mkKI [] [] None)) as [s|e|] eqn:E; cbn [obind].
  - exfalso. destruct (scan_inv _ _ _ _ Hb E) as (bs & r & F & Ef & _). exact (H bs r F Ef).
  - eexists. reflexivity.
  - exfalso. apply (scan_no_panic (S (length file)) file (mkKI [] [] None) Hb); [lia|exact E].
Qed.
Lemma bread_inv offs : forall bs s s', ofold (bread offs) bs s = Ok s' -> Forall hw_ok bs /\ kr_pos s' = (kr_pos s + total counted bs)%N /\ kr_infos s' = kr_infos s ++ texts (kr_count s) bs.
Proof.
  induction bs as [|b bs IH]; intros s s' E; [injection E as <-; cbn [total fold_right texts]; rewrite N.add_0_r, app_nil_r; auto|].
  cbn [ofold] in E. change (bread offs s b) with (beff (roll offs s) b) in E. destruct (roll_same offs s) as (Rp & _ & Rc & Ri). rewrite <- Rp, <- Rc, <- Ri. generalize dependent (roll offs s). intros r E Rp Rc Ri. clear Rp Rc Ri s. rename r into s.
  destruct (beff s b) as [s1| |] eqn:Eb; cbn [obind] in E; try discriminate. destruct (IH _ _ E) as (A & B & C).
  assert (Q : hw_ok b /\ kr_pos s1 = (kr_pos s + counted b)%N /\ kr_infos s1 ++ texts (kr_count s1) bs = kr_infos s ++ texts (kr_count s) (b :: bs)).
  { clear - Eb. assert (Push : forall adv flux, kfx_push s adv flux = Ok s1 -> kr_pos s1 = (kr_pos s + adv)%N /\ kr_infos s1 = kr_infos s /\ kr_count s1 = S (kr_count s)).
    { intros adv flux E. unfold kfx_push in E. destruct (_ <=? _)%N; [discriminate|]. apply (f_equal (fun x => match x with Ok y => y | _ => s1 end)) in E. subst s1. cbn. auto. }
    destruct b; cbn [beff] in Eb; try (destruct (Push _ _ Eb) as (-> & -> & ->); split; [exact I|split; [reflexivity|reflexivity]]);
      try (apply (f_equal (fun x => match x with Ok y => y | _ => s1 end)) in Eb; subst s1; cbv beta iota; split; [exact I|]; split; [cbn [kr_pos kfx_at counted in_band]; rewrite ?N.add_0_r; reflexivity|]; try reflexivity; cbn [kr_infos kr_count texts]; match goal with |- context [printable ?t] => destruct (printable t); [reflexivity|rewrite <- app_assoc; reflexivity] end).
    destruct (N.eqb_spec (le status) 1) as [|N1]; [discriminate|]. destruct (N.eqb_spec (le status) 2) as [|N2]; [discriminate|]. injection Eb as <-. split; [split; assumption|]. split; [cbn; rewrite N.add_0_r; reflexivity|reflexivity]. }
  destruct Q as (Q1 & Q2 & Q3). split; [constructor; assumption|]. split; [rewrite B, Q2; unfold total; cbn [fold_right]; lia|]. rewrite C. exact Q3.
Qed.
(* Whatever is accepted is a stream with at least two index blocks and no hardware error. *)
Theorem C66_only : forall file t revs, bytes_ok file = true -> kfx_stream file = Ok (t, revs) ->
  exists bs rest, Forall valid_block bs /\ file = stream_bytes bs rest /\ Forall hw_ok bs /\ t = texts 0 bs /\ 2 <= length (indexes bs) /\ 1 <= length revs < length (indexes bs).
Proof.
  intros file t revs Hb E. unfold kfx_stream in E. destruct (kfx_scan _ _ _) as [s|e|] eqn:Es; cbn [obind] in E; try discriminate.
  destruct (scan_inv _ _ _ _ Hb Es) as (bs & r & F & -> & ->). exists bs, r. split; [exact F|]. split; [reflexivity|].
  pose proof (stream_len bs r F) as Len. rewrite read_stream in E by (try assumption; lia). destruct (scanned bs (mkKI [] [] None)) as [E1 E2]. cbn [ki_offsets ki_times ki_last app] in E1, E2. rewrite E1, E2 in E. set (offs := map fst (indexes bs)) in *.
  destruct (ofold _ _ _) as [s1| |] eqn:Eo; cbn [obind] in E; try discriminate. destruct (bread_inv _ _ _ _ Eo) as (A & _ & C). split; [exact A|].
  assert (LD : forall l s s', kr_idx s = length (kr_done s) -> ofold (bread offs) l s = Ok s' -> kr_idx s' = length (kr_done s')).
  { induction l as [|b l IH]; intros u u' Hu Eu; [injection Eu as <-; exact Hu|]. cbn [ofold] in Eu. destruct (bread offs u b) as [u1| |] eqn:Eb; cbn [obind] in Eu; try discriminate. refine (IH _ _ _ Eu).
    clear - Hu Eb. assert (R : kr_idx (roll offs u) = length (kr_done (roll offs u))) by (unfold roll; destruct (nth_error _ _); [destruct (_ <=? _)%N|]; cbn [kr_idx kr_done]; rewrite ?app_length; cbn [length]; lia).
    unfold bread in Eb. generalize dependent (roll offs u). intros v Eb R. assert (Push : forall adv flux, kfx_push v adv flux = Ok u1 -> kr_idx u1 = length (kr_done u1)).
    { intros adv flux E. unfold kfx_push in E. destruct (_ <=? _)%N; [discriminate|]. apply (f_equal (fun x => match x with Ok y => y | _ => u1 end)) in E. subst u1. exact R. }
    destruct b; cbn [beff] in Eb; try exact (Push _ _ Eb); try (destruct (_ || _); [discriminate|]); apply (f_equal (fun x => match x with Ok y => y | _ => u1 end)) in Eb; subst u1; exact R. }
  pose proof (LD bs (mkKR 0 0 [] [] 0 0 []) s1 eq_refl Eo) as L1. clear LD Eo. assert (L2 : kr_idx (roll offs s1) = length (kr_done (roll offs s1))) by (unfold roll; destruct (nth_error _ _); [destruct (_ <=? _)%N|]; cbn [kr_idx kr_done]; rewrite ?app_length; cbn [length]; lia).
  destruct (roll_same offs s1) as (_ & _ & _ & Ri). rewrite Ri, C in E. cbn [kr_infos app kr_count] in E. generalize dependent (roll offs s1). intros s2 E L2 _. clear L1 C s1.
  destruct (Nat.eqb_spec (kr_idx s2) 0) as [|N0]; [discriminate|]. destruct (Nat.ltb_spec (kr_idx s2 - 1) 1) as [|N1]; [discriminate|]. destruct (Nat.ltb_spec (length offs) 2) as [|N2]; [discriminate|]. cbn [orb] in E.
  assert (t = texts 0 bs) as -> by (injection E; auto). assert (R : combine (firstn (kr_idx s2 - 1) (skipn 1 (kr_done s2 ++ [kr_cur s2]))) (deltas None (map snd (indexes bs))) = revs) by (injection E; auto). clear E.
  unfold offs in N2. rewrite map_length in N2. split; [reflexivity|]. split; [exact N2|]. apply (f_equal (@length _)) in R. rewrite combine_length, firstn_length, skipn_length, app_length in R. cbn [length] in R.
  assert (D : S (length (deltas None (map snd (indexes bs)))) = length (indexes bs)) by (destruct (indexes bs) as [|x l]; [cbn in N2; lia|cbn [map deltas]; rewrite deltas_length, map_length; reflexivity]).
  assert (length revs = Nat.min (kr_idx s2 - 1) (length (deltas None (map snd (indexes bs))))) by (etransitivity; [symmetry; exact R|lia]). lia.
Qed.
(* The loader panics only if the stream reaches no index position or a time does not fit 32 bits ... *)
Theorem C66_panics : forall file, bytes_ok file = true -> kfx_stream file = Panic ->
  exists bs rest, Forall valid_block bs /\ file = stream_bytes bs rest /\
    ((exists x, In x (transitions counted 0 0 bs) /\ (2 ^ 32 <= snd x)%N) \/ match indexes bs with [] => True | x :: _ => (total counted bs < fst x)%N end).
Proof.
  intros file Hb E. unfold kfx_stream in E. destruct (kfx_scan _ _ _) as [s|e|] eqn:Es; cbn [obind] in E; try discriminate.
  2:{ exfalso. apply (scan_no_panic (S (length file)) file (mkKI [] [] None) Hb); [lia|exact Es]. }
  destruct (scan_inv _ _ _ _ Hb Es) as (bs & r & F & -> & ->). exists bs, r. split; [exact F|]. split; [reflexivity|].
  pose proof (stream_len bs r F) as Len. rewrite read_stream in E by (try assumption; lia). destruct (scanned bs (mkKI [] [] None)) as [E1 E2]. cbn [ki_offsets ki_times ki_last app] in E1, E2. rewrite E1, E2 in E. set (offs := map fst (indexes bs)) in *.
  destruct (Forall_Exists_dec (fun x : N * N => (snd x < 2 ^ 32)%N) (fun x => match N.ltb_spec0 (snd x) (2 ^ 32) with ReflectT _ h => left h | ReflectF _ h => right h end) (transitions counted 0 0 bs)) as [Sm|Ex].
  2:{ left. apply Exists_exists in Ex. destruct Ex as (x & Hx & Hn). exists x. split; [exact Hx|]. apply N.nlt_ge. exact Hn. }
  right. destruct (beff_ok offs bs (mkKR 0 0 [] [] 0 0 []) 0%N eq_refl Sm) as [[X _]|(s1 & X & _ & P & _)]; rewrite X in E; cbn [obind] in E; [discriminate|].
  cbn [kr_pos] in P. rewrite N.add_0_l in P. destruct (Nat.eqb_spec (kr_idx (roll offs s1)) 0) as [K|]; [|destruct (_ || _); discriminate].
  unfold roll in K. destruct (indexes bs) as [|x l]; [exact I|]. unfold offs in K. cbn [map] in K. destruct (nth_error (fst x :: map fst l) (kr_idx s1)) as [o|] eqn:Eo.
  - destruct (N.leb_spec o (kr_pos s1)) as [|G]; [discriminate|]. rewrite K in Eo. injection Eo as <-. rewrite <- P. exact G.
  - rewrite K in Eo. discriminate.
Qed.
(* ... and it does then: a stream without a reachable index position is not rejected with an error. *)
Theorem C66_no_index_refuted : ~ (forall bs rest, Forall valid_block bs -> Forall hw_ok bs -> small_times bs -> indexes bs = [] -> exists e, kfx_stream (stream_bytes bs rest) = Err e).
Proof. intros H. destruct (H [BFlux1 100] [] ltac:(repeat constructor; cbn; lia) ltac:(repeat constructor) (small_by [BFlux1 100] eq_refl) eq_refl) as (e & E). vm_compute in E. discriminate. Qed.

(* Loading a file into an empty image gives the track at cylinder 0, head 0. *)
Lemma default_free : flux_free di_default. Proof. split; [reflexivity|left; reflexivity]. Qed.
Lemma default_wf : wf di_default ([], []). Proof. apply empty_wf; reflexivity. Qed.
Theorem C66_load : forall dec bs rest, Forall valid_block bs -> spaced (indexes bs) -> Forall hw_ok bs -> small_times bs -> 2 <= reached counted bs ->
  exists revs, stream_revolutions counted bs revs /\ forall tracks, dec (texts 0 bs) (mkCh 0 0) (synthesize revs) = Ok tracks ->
    exists d', kfx_load_image dec di_default (stream_bytes bs rest) = (d', Ok (texts 0 bs, revs)) /\ maps_valid d' /\ shows d' ([flux_track (mkCh 0 0) tracks], []).
Proof.
  intros dec bs rest V Sp Hw Sm H2. destruct (stream_ok bs rest V Sp Hw Sm H2) as (revs & E & R). exists revs. split; [exact R|]. intros tracks D.
  unfold kfx_load_image. rewrite E. change (kfx_next_ch di_default) with (Ok (mkCh 0 0)). cbn iota.
  destruct (flux_add_ok (dec (texts 0 bs)) di_default ([], []) (mkCh 0 0) revs tracks default_wf default_free ltac:(reflexivity) D) as (d' & E1 & W & _). unfold flux_add in E1.
  destruct (add_track_fluxstream _ _ _) as [d1 r]. destruct r as [k| |]; cbn [obind] in E1; try discriminate. injection E1 as <-. exists d1. split; [reflexivity|]. split; [exact (proj1 W)|]. apply wf_shows. exact W.
Qed.
(* A load that fails leaves the tracks of the image as they were. *)
Theorem C66_failed_load : forall dec d file d' e s, maps_valid d -> shows d s -> kfx_load_image dec d file = (d', Err e) -> maps_valid d' /\ shows d' s.
Proof.
  intros dec d file d' e s M Sh E. assert (Q : di_pool d' = di_pool d /\ di_map0 d' = di_map0 d /\ di_map1 d' = di_map1 d).
  { unfold kfx_load_image in E. destruct (kfx_stream file) as [[t revs]| |]; [|injection E as <- _; auto|discriminate]. destruct (kfx_next_ch d) as [ch| |]; [|injection E as <- _; auto|discriminate].
    unfold add_track_fluxstream in E. destruct (2 <=? ch_h ch)%N; [injection E as <- _; auto|]. destruct (res_rejects _ _); [injection E as <- _; auto|]. destruct (dec _ _ _); cbn in E; [discriminate| |discriminate]. injection E as <- _. auto. }
  destruct Q as (Q1 & Q2 & Q3). unfold maps_valid, shows, di_track, head_map in *. rewrite Q1, Q2, Q3. auto.
Qed.

Print Assumptions C66_stream.
Print Assumptions C66_stream_exact.
Print Assumptions C66_positions_refuted.
Print Assumptions C66_incomplete.
Print Assumptions C66_hardware_error.
Print Assumptions C66_truncated.
Print Assumptions C66_only.
Print Assumptions C66_panics.
Print Assumptions C66_no_index_refuted.
Print Assumptions C66_load.
Print Assumptions C66_failed_load.
