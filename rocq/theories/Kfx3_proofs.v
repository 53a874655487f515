(* Kfx3_proofs.v - from the two passes to the revolutions of a stream. *)
From Verif Require Import Base Base_lemmas Chs_model BitRing_model Mfm_model Types_model System34_model MetaSector_model BitStream_model DiskImage_model Raw_model F86_model Hxc_model Flux_model Pll_model Kfx_model Kfx_spec Kfx_proofs Kfx2_proofs.
From Coq Require Import Lia.
Import ListNotations.
Local Open Scope nat_scope.

Fixpoint deltas (last : option N) (cs : list N) : list N :=
  match cs with
  | [] => []
  | c :: t => match last with Some l => wrapping_sub32 c l :: deltas (Some c) t | None => deltas (Some c) t end
  end.
Lemma scanned : forall bs s, ki_offsets (fold_left bscan bs s) = ki_offsets s ++ map fst (indexes bs) /\
  ki_times (fold_left bscan bs s) = ki_times s ++ deltas (ki_last s) (map snd (indexes bs)).
Proof.
  induction bs as [|b bs IH]; intros s; [cbn; rewrite !app_nil_r; auto|]. cbn [fold_left]. destruct (IH (bscan s b)) as [E1 E2]. rewrite E1, E2. clear E1 E2.
  unfold indexes. cbn [flat_map]. fold (indexes bs). destruct b; cbn [bscan app]; auto. cbn [ki_offsets ki_times ki_last map fst snd deltas].
  split; [rewrite <- app_assoc; reflexivity|]. destruct (ki_last s); [rewrite <- app_assoc; reflexivity|reflexivity].
Qed.
Lemma deltas_some : forall cs l i a b, nth_error (l :: cs) i = Some a -> nth_error cs i = Some b -> nth_error (deltas (Some l) cs) i = Some (wrapping_sub32 b a).
Proof.
  induction cs as [|c cs IH]; intros l i a b Ha Hb; [destruct i; discriminate|]. cbn [deltas]. destruct i as [|i].
  - injection Ha as ->. injection Hb as ->. reflexivity.
  - cbn [nth_error] in *. apply IH; assumption.
Qed.
Lemma deltas_nth cs i a b : nth_error cs i = Some a -> nth_error cs (S i) = Some b -> nth_error (deltas None cs) i = Some (wrapping_sub32 b a).
Proof. destruct cs as [|c cs]; [destruct i; discriminate|]. intros Ha Hb. cbn [deltas]. apply deltas_some; assumption. Qed.
Lemma filter_all {A} (f : A -> bool) l : (forall x, In x l -> f x = true) -> filter f l = l.
Proof. induction l as [|a l IH]; intros H; [reflexivity|]. cbn [filter]. rewrite (H a) by (left; reflexivity). f_equal. apply IH. intros x Hx. apply H. right. exact Hx. Qed.
Lemma filter_nil {A} (f : A -> bool) l : (forall x, In x l -> f x = false) -> filter f l = [].
Proof. induction l as [|a l IH]; intros H; [reflexivity|]. cbn [filter]. rewrite (H a) by (left; reflexivity). apply IH. intros x Hx. apply H. right. exact Hx. Qed.
Lemma filter_cut {A} (f : A -> bool) (l : list A) k : k <= length l -> (forall j x, j < k -> nth_error l j = Some x -> f x = true) -> (forall j x, k <= j -> nth_error l j = Some x -> f x = false) -> length (filter f l) = k.
Proof.
  intros Hk A1 A2. rewrite <- (firstn_skipn k l), filter_app, app_length. rewrite (filter_all f (firstn k l)), (filter_nil f (skipn k l)).
  - cbn [length]. rewrite firstn_length. lia.
  - intros x Hx. apply In_nth_error in Hx. destruct Hx as (j & Hj). rewrite nth_error_skipn in Hj. apply (A2 (k + j)); [lia|exact Hj].
  - intros x Hx. apply In_nth_error in Hx. destruct Hx as (j & Hj). assert (j < k) by (assert (L : j < length (firstn k l)) by (apply nth_error_Some; congruence); rewrite firstn_length in L; lia).
    rewrite nth_error_firstn in Hj. destruct (j <? k); [|discriminate]. exact (A1 j x H Hj).
Qed.
Lemma apart_grow offs : apart offs -> forall n i a b, nth_error offs i = Some a -> nth_error offs (i + n) = Some b -> (a <= b)%N.
Proof.
  intros Ha. induction n as [|n IH]; intros i a b E1 E2; [rewrite Nat.add_0_r in E2; rewrite E1 in E2; injection E2 as ->; lia|].
  destruct (nth_error offs (i + n)) as [c|] eqn:E3; [|apply nth_error_None in E3; assert (i + S n < length offs) by (apply nth_error_Some; congruence); lia].
  pose proof (IH i a c E1 E3). replace (i + S n) with (S (i + n)) in E2 by lia. pose proof (Ha _ _ _ E3 E2). lia.
Qed.
Lemma spaced_apart bs : spaced (indexes bs) -> apart (map fst (indexes bs)).
Proof.
  intros H i a b Ea Eb. rewrite nth_error_map in Ea, Eb. destruct (nth_error (indexes bs) i) as [x|] eqn:E1; [|discriminate]. destruct (nth_error (indexes bs) (S i)) as [y|] eqn:E2; [|discriminate].
  cbn [option_map] in Ea, Eb. injection Ea as <-. injection Eb as <-. exact (H i x y E1 E2).
Qed.
Lemma count_fst (p : N) (l : list (N * N)) : length (filter (fun x => (x <=? p)%N) (map fst l)) = length (filter (fun x => (fst x <=? p)%N) l).
Proof. induction l as [|x l IH]; [reflexivity|]. cbn [map filter]. destruct (fst x <=? p)%N; cbn [length]; rewrite IH; reflexivity. Qed.
Lemma inv_start offs : inv offs [] (mkKR 0 0 [] [] 0 0 []).
Proof.
  constructor; cbn [kr_idx kr_done kr_pos kr_cur length]; try (intros; lia); try reflexivity; try lia.
  intros o _. split; [constructor|lia].
Qed.
Definition reached (size : block -> N) (bs : list block) : nat := length (filter (fun x => (fst x <=? total size bs)%N) (indexes bs)).
Definition small_times (bs : list block) : Prop := Forall (fun x => (snd x < 2 ^ 32)%N) (transitions counted 0 0 bs).
Lemma stream_result bs rest : Forall valid_block bs -> spaced (indexes bs) -> Forall hw_ok bs -> small_times bs ->
  exists s, inv (map fst (indexes bs)) (transitions counted 0 0 bs) s /\ kr_idx s = reached counted bs /\ kr_infos s = texts 0 bs /\
    kfx_stream (stream_bytes bs rest) = if kr_idx s =? 0 then Panic else if (kr_idx s - 1 <? 1) || (length (indexes bs) <? 2) then Err IncompatibleImage
      else Ok (texts 0 bs, combine (firstn (kr_idx s - 1) (skipn 1 (kr_done s ++ [kr_cur s]))) (deltas None (map snd (indexes bs)))).
Proof.
  intros V Sp Hw Sm. pose proof (spaced_apart bs Sp) as Ap. set (offs := map fst (indexes bs)) in *.
  destruct (run offs Ap bs _ [] 0%N (inv_start offs) eq_refl Hw Sm) as (s1 & R1 & R2 & R3 & R4). cbn [kr_pos app kr_infos kr_count] in R2, R3, R4. rewrite N.add_0_l in R3.
  destruct (roll_inv offs _ s1 Ap R2) as [I2 S2]. destruct (roll_same offs s1) as (Q1 & _ & _ & Q4). exists (roll offs s1).
  split; [exact I2|]. rewrite <- and_assoc, and_comm, <- and_assoc. split.
  - split; [|].
    + pose proof (stream_len bs rest V) as Len. unfold kfx_stream. rewrite scan_stream by (try assumption; lia). cbn [obind]. destruct (scanned bs (mkKI [] [] None)) as [E1 E2]. cbn [ki_offsets ki_times ki_last app] in E1, E2. rewrite E1, E2. fold offs.
      rewrite read_stream by (try assumption; lia). rewrite R1. cbn [obind]. rewrite Q4, R4. assert (Lo : length offs = length (indexes bs)) by apply map_length. rewrite Lo. reflexivity.
    + unfold reached. rewrite <- R3, <- Q1. transitivity (length (filter (fun x => (x <=? kr_pos (roll offs s1))%N) offs)).
      * symmetry. apply filter_cut; [exact (i_le _ _ _ I2)| |].
        -- intros j x Hj E. apply N.leb_le. exact (i_past _ _ _ I2 j x Hj E).
        -- intros j x Hj E. apply N.leb_gt. destruct (nth_error offs (kr_idx (roll offs s1))) as [o|] eqn:Eo.
           ++ pose proof (S2 o Eo). pose proof (apart_grow offs Ap (j - kr_idx (roll offs s1)) _ _ x Eo) as G. replace (kr_idx (roll offs s1) + (j - kr_idx (roll offs s1))) with j in G by lia. specialize (G E). lia.
           ++ apply nth_error_None in Eo. assert (j < length offs) by (apply nth_error_Some; congruence). lia.
      * unfold offs. apply count_fst.
  - rewrite Q4. exact R4.
Qed.
Lemma combine_nth {A B} : forall (l : list A) (m : list B) i a b, nth_error l i = Some a -> nth_error m i = Some b -> nth_error (combine l m) i = Some (a, b).
Proof. induction l as [|x l IH]; intros m i a b Ha Hb; [destruct i; discriminate|]. destruct m as [|y m]; [destruct i; discriminate|]. destruct i as [|i]; [injection Ha as ->; injection Hb as ->; reflexivity|]. apply IH; assumption. Qed.
Lemma deltas_length : forall cs l, length (deltas (Some l) cs) = length cs.
Proof. induction cs as [|c cs IH]; intros l; [reflexivity|]. cbn [deltas length]. rewrite IH. reflexivity. Qed.
Lemma stream_ok bs rest : Forall valid_block bs -> spaced (indexes bs) -> Forall hw_ok bs -> small_times bs -> 2 <= reached counted bs ->
  exists revs, kfx_stream (stream_bytes bs rest) = Ok (texts 0 bs, revs) /\ stream_revolutions counted bs revs.
Proof.
  intros V Sp Hw Sm H2. destruct (stream_result bs rest V Sp Hw Sm) as (s & I & K & X & E). set (k := kr_idx s) in *. pose proof (i_le _ _ _ I) as Lk. pose proof (i_len _ _ _ I) as Ld. fold k in Lk, Ld. rewrite map_length in Lk.
  destruct (Nat.eqb_spec k 0) as [|_]; [lia|]. destruct (Nat.ltb_spec (k - 1) 1) as [|_]; [lia|]. destruct (Nat.ltb_spec (length (indexes bs)) 2) as [|_]; [lia|]. cbn [orb] in E.
  rewrite E. eexists. split; [reflexivity|].
  assert (Lr : length (combine (firstn (k - 1) (skipn 1 (kr_done s ++ [kr_cur s]))) (deltas None (map snd (indexes bs)))) = k - 1).
  { rewrite combine_length, firstn_length, skipn_length, app_length. cbn [length]. destruct (indexes bs) as [|x l] eqn:Ei; [cbn [length] in Lk; lia|]. cbn [map deltas]. rewrite deltas_length, map_length. cbn [length] in Lk. lia. }
  split; [etransitivity; [exact (f_equal S Lr)|fold (reached counted bs); lia]|]. intros i a b Hi0 Ea Eb. assert (Hi : i < k - 1) by (eapply Nat.lt_le_trans; [exact Hi0|apply Nat.eq_le_incl; exact Lr]). apply combine_nth.
  - rewrite nth_error_firstn. replace (i <? k - 1) with true by (symmetry; apply Nat.ltb_lt; exact Hi). rewrite nth_error_skipn. cbn [Nat.add]. rewrite nth_error_app1 by lia.
    apply (i_done _ _ _ I); [fold k; lia|rewrite nth_error_map, Ea; reflexivity|rewrite nth_error_map, Eb; reflexivity].
  - apply (deltas_nth _ i (snd a) (snd b)); rewrite nth_error_map; [rewrite Ea|rewrite Eb]; reflexivity.
Qed.

(* without any condition on the index positions *)
Lemma beff_ok offs : forall bs s ovl, kr_ovl s = N.min 0xFFFFFFFF ovl -> Forall (fun x => (snd x < 2 ^ 32)%N) (transitions counted (kr_pos s) ovl bs) ->
  (ofold (bread offs) bs s = Err ImageCorruptError /\ ~ Forall hw_ok bs) \/
  exists s', ofold (bread offs) bs s = Ok s' /\ Forall hw_ok bs /\ kr_pos s' = (kr_pos s + total counted bs)%N /\ kr_infos s' = kr_infos s ++ texts (kr_count s) bs.
Proof.
  change (2 ^ 32)%N with 4294967296%N. induction bs as [|b bs IH]; intros s ovl Ho F.
  - right. exists s. cbn [ofold total fold_right texts]. rewrite app_nil_r, N.add_0_r. auto.
  - cbn [ofold]. change (bread offs s b) with (beff (roll offs s) b). destruct (roll_same offs s) as (Rp & Ro & Rc & Ri). generalize dependent (roll offs s). intros s1 Rp Ro Rc Ri. rewrite <- Rp in F |- *. rewrite <- Rc, <- Ri. rewrite <- Ro in Ho. clear Rp Ro Rc Ri s.
    assert (Go : forall s2 ovl2, beff s1 b = Ok s2 -> hw_ok b -> kr_pos s2 = (kr_pos s1 + counted b)%N -> kr_ovl s2 = N.min 0xFFFFFFFF ovl2 ->
       Forall (fun x => (snd x < 4294967296)%N) (transitions counted (kr_pos s1 + counted b) ovl2 bs) -> kr_infos s2 ++ texts (kr_count s2) bs = kr_infos s1 ++ texts (kr_count s1) (b :: bs) ->
       ((let! s := beff s1 b in ofold (bread offs) bs s) = Err ImageCorruptError /\ ~ Forall hw_ok (b :: bs)) \/
       exists s', (let! s := beff s1 b in ofold (bread offs) bs s) = Ok s' /\ Forall hw_ok (b :: bs) /\ kr_pos s' = (kr_pos s1 + total counted (b :: bs))%N /\ kr_infos s' = kr_infos s1 ++ texts (kr_count s1) (b :: bs)).
    { intros s2 ovl2 Eb Hb Ep Eo F2 Et. rewrite Eb. cbn [obind]. rewrite <- Ep in F2. destruct (IH s2 ovl2 Eo F2) as [[E1 E2]|(s' & E1 & E2 & E3 & E4)].
      - left. split; [exact E1|]. intros X. exact (E2 (Forall_inv_tail X)).
      - right. exists s'. split; [exact E1|]. split; [constructor; assumption|]. split; [rewrite E3, Ep; unfold total; cbn [fold_right]; lia|]. rewrite E4. exact Et. }
    assert (Push : forall flux adv, kfx_push s1 adv flux = beff s1 b -> (ovl + flux < 4294967296)%N -> exists s2, beff s1 b = Ok s2 /\ kr_pos s2 = (kr_pos s1 + adv)%N /\ kr_ovl s2 = 0%N /\ kr_count s2 = S (kr_count s1) /\ kr_infos s2 = kr_infos s1).
    { intros flux adv <- Hl. unfold kfx_push. destruct (N.leb_spec 4294967296 (kr_ovl s1 + flux)); [lia|]. eexists. split; [reflexivity|]. cbn. auto. }
    destruct b.
    + pose proof (Forall_inv F) as Hv. cbn [snd] in Hv. destruct (Push b 1%N eq_refl Hv) as (s2 & P1 & P2 & P3 & P4 & P5). apply (Go s2 0%N P1 I P2 P3 (Forall_inv_tail F)). rewrite P4, P5. reflexivity.
    + pose proof (Forall_inv F) as Hv. cbn [snd] in Hv. destruct (Push _ 2%N eq_refl Hv) as (s2 & P1 & P2 & P3 & P4 & P5). apply (Go s2 0%N P1 I P2 P3 (Forall_inv_tail F)). rewrite P4, P5. reflexivity.
    + pose proof (Forall_inv F) as Hv. cbn [snd] in Hv. destruct (Push _ 0%N eq_refl Hv) as (s2 & P1 & P2 & P3 & P4 & P5). apply (Go s2 0%N P1 I P2 P3 (Forall_inv_tail F)). rewrite P4, P5. reflexivity.
    + apply (Go _ (ovl + 65536)%N eq_refl I); [cbn [kr_pos counted]; lia|cbn [kr_ovl]; lia|exact F|reflexivity].
    + apply (Go _ ovl eq_refl I eq_refl Ho F eq_refl).
    + apply (Go _ ovl eq_refl I eq_refl Ho F eq_refl).
    + apply (Go _ ovl eq_refl I eq_refl Ho F eq_refl).
    + apply (Go s1 ovl eq_refl I (eq_sym (N.add_0_r _)) Ho F eq_refl).
    + apply (Go s1 ovl eq_refl I (eq_sym (N.add_0_r _)) Ho F eq_refl).
    + destruct (N.eq_dec (le status) 1) as [E1|E1]; [left; split; [cbn [beff]; rewrite E1; reflexivity|]; intros X; destruct (Forall_inv X); contradiction|].
      destruct (N.eq_dec (le status) 2) as [E2|E2]; [left; split; [cbn [beff]; rewrite E2; reflexivity|]; intros X; destruct (Forall_inv X); contradiction|].
      apply (Go s1 ovl); [cbn [beff]; apply N.eqb_neq in E1, E2; rewrite E1, E2; reflexivity|split; assumption|apply (eq_sym (N.add_0_r _))|exact Ho|exact F|reflexivity].
    + apply (Go _ ovl eq_refl I); [cbn [kr_pos counted in_band]; lia|exact Ho|exact F|]. cbn [kr_infos kr_count texts]. destruct (printable text); [reflexivity|]. rewrite <- app_assoc. reflexivity.
    + apply (Go s1 ovl eq_refl I (eq_sym (N.add_0_r _)) Ho F eq_refl).
Qed.
