(* DiskImage_proofs.v - the track map refines one list of tracks per head. *)
From Coq Require Import Sorting.Sorted.
From Verif Require Import Base Base_lemmas Chs_model Types_model Mfm_model System34_model MetaSector_model MetaSector_proofs BitStream_model DiskImage_model DiskImage_spec.

(* the abstraction relation *)
Definition sees (d : DiskImage) (s : Heads) : Prop :=
  map (nth_error (di_pool d)) (di_map0 d) = map Some (fst s) /\
  map (nth_error (di_pool d)) (di_map1 d) = map Some (snd s).
Definition wf (d : DiskImage) (s : Heads) : Prop := maps_valid d /\ sees d s.

Lemma map_some_nth : forall {A B} (f : A -> option B) m l c,
  map f m = map Some l -> match nth_error m c with Some x => f x | None => None end = nth_error l c.
Proof.
  intros A B f m l c H.
  assert (E : nth_error (map f m) c = nth_error (map Some l) c) by (rewrite H; reflexivity).
  rewrite !nth_error_map in E. destruct (nth_error m c), (nth_error l c); cbn in E; congruence.
Qed.
Lemma map_some_len : forall {A B} (f : A -> option B) m l, map f m = map Some l -> length m = length l.
Proof. intros A B f m l H. apply (f_equal (@length _)) in H. rewrite !map_length in H. exact H. Qed.

Lemma wf_shows : forall d s, wf d s -> shows d s.
Proof.
  intros d s [_ [H0 H1]] c h Hh. unfold di_track. cbn [ch_h ch_c].
  assert (E : h = 0%N \/ h = 1%N) by lia. destruct E as [-> | ->]; cbn [head_map obind side].
  - f_equal. exact (map_some_nth _ _ _ (N.to_nat c) H0).
  - f_equal. exact (map_some_nth _ _ _ (N.to_nat c) H1).
Qed.

Lemma map_nth_app : forall (pool : list DTrack) m t, (forall ti, In ti m -> ti < length pool) ->
  map (nth_error (pool ++ [t])) m = map (nth_error pool) m.
Proof. intros pool m t H. apply map_ext_in. intros a Ha. apply nth_error_app1. apply H; exact Ha. Qed.

Lemma NoDup_app_l : forall {A} (a b : list A), NoDup (a ++ b) -> NoDup a.
Proof. induction a as [|x a IH]; intros b H; [constructor|]. inversion H; subst. constructor; [|eapply IH; eauto]. intro; apply H2; apply in_or_app; auto. Qed.
Lemma NoDup_app_r : forall {A} (a b : list A), NoDup (a ++ b) -> NoDup b.
Proof. induction a as [|x a IH]; intros b H; [exact H|]. inversion H; subst. eapply IH; eauto. Qed.
Lemma NoDup_app_disj : forall {A} (a b : list A) x, NoDup (a ++ b) -> In x a -> In x b -> False.
Proof.
  induction a as [|y a IH]; intros b x H Ha Hb; [destruct Ha|]. inversion H; subst.
  destruct Ha as [-> | Ha]; [apply H2; apply in_or_app; auto | eapply IH; eauto].
Qed.
Lemma NoDup_app_intro : forall {A} (a b : list A), NoDup a -> NoDup b -> (forall x, In x a -> In x b -> False) -> NoDup (a ++ b).
Proof.
  induction a as [|y a IH]; intros b Ha Hb H; [exact Hb|]. inversion Ha; subst. cbn. constructor.
  - intro Hi. apply in_app_or in Hi. destruct Hi as [Hi|Hi]; [auto|]. eapply H; [left; reflexivity|exact Hi].
  - apply IH; auto. intros x Hx Hx'. eapply H; [right; exact Hx|exact Hx'].
Qed.

Lemma push_wf : forall d s h t, wf d s -> (h < 2)%N -> wf (push_track d h t) (append_to s h t).
Proof.
  intros d s h t [[Hnd Hr] [H0 H1]] Hh.
  assert (Hr0 : forall ti, In ti (di_map0 d) -> ti < length (di_pool d)) by (intros; apply Hr; apply in_or_app; auto).
  assert (Hr1 : forall ti, In ti (di_map1 d) -> ti < length (di_pool d)) by (intros; apply Hr; apply in_or_app; auto).
  assert (Hn : ~ In (length (di_pool d)) (di_map0 d ++ di_map1 d)) by (intro Hi; apply Hr in Hi; lia).
  assert (E : h = 0%N \/ h = 1%N) by lia. clear Hh.
  destruct E as [-> | ->]; unfold push_track; change (0 =? 0)%N with true; change (1 =? 0)%N with false; cbn -[length]; (split; [split|split]); cbn -[length].
  - apply NoDup_app_intro.
    + apply NoDup_app_intro; [eapply NoDup_app_l; eauto | repeat constructor; auto |].
      intros x Hx [<-|[]]. apply Hn, in_or_app; auto.
    + eapply NoDup_app_r; eauto.
    + intros x Hx Hx'. apply in_app_or in Hx. destruct Hx as [Hx|[<-|[]]].
      * eapply NoDup_app_disj; eauto.
      * apply Hn, in_or_app; auto.
  - intros ti Hi. rewrite app_length. cbn [length]. rewrite <- app_assoc in Hi.
    apply in_app_or in Hi. destruct Hi as [Hi|[<-|Hi]]; [apply Hr0 in Hi; lia | lia | apply Hr1 in Hi; lia].
  - rewrite !map_app, map_nth_app by auto. rewrite H0. cbn [map]. f_equal. f_equal.
    rewrite nth_error_app2 by lia. rewrite Nat.sub_diag. reflexivity.
  - rewrite map_nth_app by auto. exact H1.
  - rewrite app_assoc. apply NoDup_app_intro; [exact Hnd | repeat constructor; auto |].
    intros x Hx [<-|[]]. auto.
  - intros ti Hi. rewrite app_length. cbn [length].
    apply in_app_or in Hi. destruct Hi as [Hi|Hi]; [apply Hr0 in Hi; lia|].
    apply in_app_or in Hi. destruct Hi as [Hi|[<-|[]]]; [apply Hr1 in Hi; lia | lia].
  - rewrite map_nth_app by auto. exact H0.
  - rewrite !map_app, map_nth_app by auto. rewrite H1. cbn [map]. f_equal. f_equal.
    rewrite nth_error_app2 by lia. rewrite Nat.sub_diag. reflexivity.
Qed.

Lemma map_nth_upd_notin : forall (pool : list DTrack) m ti t, ~ In ti m ->
  map (nth_error (upd pool ti t)) m = map (nth_error pool) m.
Proof.
  intros pool m ti t H. apply map_ext_in. intros a Ha. apply nth_error_upd_other. intro; subst; auto.
Qed.
Lemma map_nth_upd_in : forall (pool : list DTrack) m c ti t l, NoDup m -> nth_error m c = Some ti ->
  ti < length pool -> map (nth_error pool) m = map Some l ->
  map (nth_error (upd pool ti t)) m = map Some (upd l c t).
Proof.
  induction m as [|x m IH]; intros c ti t l Hnd Hc Hlt Hm; [destruct c; discriminate|].
  destruct l as [|y l]; [discriminate|]. cbn in Hm. inversion Hm as [[Hx Hm']]. inversion Hnd; subst.
  destruct c as [|c]; cbn in Hc.
  - inversion Hc; subst. cbn [map upd]. rewrite nth_error_upd_same by exact Hlt. f_equal.
    rewrite map_nth_upd_notin by auto. exact Hm'.
  - cbn [map upd]. rewrite nth_error_upd_other by (intro; subst; apply nth_error_In in Hc; auto).
    rewrite Hx. f_equal. apply IH; auto.
Qed.

Lemma seek_track_inv : forall d s ch ti t, wf d s -> seek_track d ch = Ok (ti, t) ->
  (ch_h ch < 2)%N /\ nth_error (side s (ch_h ch)) (N.to_nat (ch_c ch)) = Some t /\
  nth_error (if (ch_h ch =? 0)%N then di_map0 d else di_map1 d) (N.to_nat (ch_c ch)) = Some ti /\
  nth_error (di_pool d) ti = Some t.
Proof.
  intros d s ch ti t Hwf H. pose proof (wf_shows _ _ Hwf) as Hs. unfold seek_track in H.
  destruct (1 <? ch_h ch)%N eqn:Eh; [discriminate|]. apply N.ltb_ge in Eh.
  assert (Hlt : (ch_h ch < 2)%N) by lia. specialize (Hs (ch_c ch) (ch_h ch) Hlt). unfold di_track in Hs. cbn [ch_h ch_c] in Hs.
  assert (E : ch_h ch = 0%N \/ ch_h ch = 1%N) by lia.
  destruct E as [E|E]; rewrite E in *; cbn [head_map obind] in *; change (0 =? 0)%N with true; change (1 =? 0)%N with false; cbn iota.
  all: destruct (length _ <=? _) in H; [discriminate|]; unfold oindex in H.
  all: destruct (nth_error _ (N.to_nat (ch_c ch))) as [x|] eqn:En in H; [|discriminate]; cbn [obind] in H.
  all: rewrite En in Hs; destruct (nth_error (di_pool d) x) as [y|] eqn:Ep; [|discriminate]; cbn [obind] in H.
  all: inversion H; subst; inversion Hs; repeat split; auto.
Qed.

Lemma replace_wf : forall d s ch ti t t', wf d s -> seek_track d ch = Ok (ti, t) ->
  wf (with_pool d (upd (di_pool d) ti t')) (replace_at s ch t').
Proof.
  intros d s ch ti t t' Hwf H. destruct (seek_track_inv _ _ _ _ _ Hwf H) as (Hlt & _ & Hm & Hp).
  destruct Hwf as [[Hnd Hr] [H0 H1]].
  assert (Hti : ti < length (di_pool d)) by (apply nth_error_Some; congruence).
  unfold with_pool, replace_at. split; [split|split]; cbn [di_map0 di_map1 di_pool].
  - exact Hnd.
  - intros x Hx. rewrite upd_length. auto.
  - assert (E : ch_h ch = 0%N \/ ch_h ch = 1%N) by lia. destruct E as [E|E]; rewrite E in *.
    + change (0 =? 0)%N with true in Hm. cbn iota in Hm. cbn [fst].
      eapply map_nth_upd_in; eauto. eapply NoDup_app_l; eauto.
    + change (1 =? 0)%N with false in Hm. cbn iota in Hm. cbn [fst]. rewrite map_nth_upd_notin; [exact H0|].
      intro Hi. eapply NoDup_app_disj; [exact Hnd|exact Hi|eapply nth_error_In; exact Hm].
  - assert (E : ch_h ch = 0%N \/ ch_h ch = 1%N) by lia. destruct E as [E|E]; rewrite E in *.
    + change (0 =? 0)%N with true in Hm. cbn iota in Hm. cbn [snd]. rewrite map_nth_upd_notin; [exact H1|].
      intro Hi. eapply NoDup_app_disj; [exact Hnd|eapply nth_error_In; exact Hm|exact Hi].
    + change (1 =? 0)%N with false in Hm. cbn iota in Hm. cbn [snd].
      eapply map_nth_upd_in; eauto. eapply NoDup_app_r; eauto.
Qed.

(* ---- removal ---- *)
Fixpoint keep {A} (drop : nat -> bool) (l : list A) : list A :=
  match l with [] => [] | x :: t => if drop 0 then keep (fun i => drop (S i)) t else x :: keep (fun i => drop (S i)) t end.
Lemma filter_seq_S : forall P n, filter P (seq 0 (S n)) = (if P 0 then [0] else []) ++ map S (filter (fun i => P (S i)) (seq 0 n)).
Proof.
  intros P n. cbn [seq filter]. rewrite <- seq_shift.
  assert (E : forall l, filter P (map S l) = map S (filter (fun i => P (S i)) l)).
  { induction l as [|x l IH]; [reflexivity|]. cbn. rewrite IH. destruct (P (S x)); reflexivity. }
  rewrite E. destruct (P 0); reflexivity.
Qed.
Lemma fold_remove_S : forall {A} ps (x : A) l,
  fold_left (fun l i => remove_at i l) (map S ps) (x :: l) = x :: fold_left (fun l i => remove_at i l) ps l.
Proof. induction ps as [|p ps IH]; intros x l; [reflexivity|]. cbn. apply IH. Qed.
Lemma remove_positions_keep : forall m P, remove_positions m (filter P (seq 0 (length m))) = keep P m.
Proof.
  unfold remove_positions. induction m as [|x m IH]; intros P; [reflexivity|].
  cbn [length keep]. rewrite filter_seq_S, rev_app_distr, fold_left_app, <- map_rev, fold_remove_S, IH.
  destruct (P 0); reflexivity.
Qed.
Lemma keep_ext : forall {A} (l : list A) P Q, (forall i, i < length l -> P i = Q i) -> keep P l = keep Q l.
Proof.
  induction l as [|x l IH]; intros P Q H; [reflexivity|]. cbn. rewrite (H 0) by (cbn; lia).
  rewrite (IH (fun i => P (S i)) (fun i => Q (S i))); [reflexivity|]. intros i Hi. apply H. cbn. lia.
Qed.
Lemma keep_map : forall {A B} (f : A -> B) l P, keep P (map f l) = map f (keep P l).
Proof. intros A B f. induction l as [|x l IH]; intros P; [reflexivity|]. cbn. rewrite IH. destruct (P 0); reflexivity. Qed.
Lemma keep_evens : forall {A} n (l : list A), length l <= n -> keep (fun i => negb (i mod 2 =? 0)) l = evens l.
Proof.
  induction n as [|n IH]; intros l H; [destruct l; [reflexivity|cbn in H; lia]|].
  destruct l as [|a [|b l]]; [reflexivity|reflexivity|]. cbn [keep evens].
  change (0 mod 2) with 0. change (1 mod 2) with 1. cbn [Nat.eqb negb]. f_equal.
  rewrite <- (IH l) by (cbn in H; lia). apply keep_ext. intros i _.
  replace (S (S i)) with (i + 1 * 2) by lia. rewrite Nat.mod_add by lia. reflexivity.
Qed.
Lemma keep_filter : forall {A} (f : A -> bool) l P, (forall i x, nth_error l i = Some x -> P i = negb (f x)) ->
  keep P l = filter f l.
Proof.
  intros A f. induction l as [|x l IH]; intros P H; [reflexivity|]. cbn. rewrite (H 0 x) by reflexivity.
  rewrite (IH (fun i => P (S i))); [destruct (f x); reflexivity|]. intros i y Hy. apply (H (S i) y). exact Hy.
Qed.
Lemma keep_incl : forall {A} (l : list A) P x, In x (keep P l) -> In x l.
Proof.
  induction l as [|y l IH]; intros P x H; [exact H|]. cbn in H. destruct (P 0); [right; eapply IH; eauto|].
  destruct H as [->|H]; [left; reflexivity | right; eapply IH; eauto].
Qed.
Lemma keep_NoDup : forall {A} (l : list A) P, NoDup l -> NoDup (keep P l).
Proof.
  induction l as [|y l IH]; intros P H; [constructor|]. inversion H; subst. cbn. destruct (P 0); [auto|].
  constructor; [|auto]. intro Hi. apply keep_incl in Hi. auto.
Qed.
Lemma keep_wf : forall d s P Q, wf d s ->
  wf (with_maps d (keep P (di_map0 d)) (keep Q (di_map1 d))) (keep P (fst s), keep Q (snd s)).
Proof.
  intros d s P Q [[Hnd Hr] [H0 H1]]. split; [split|split]; cbn.
  - apply NoDup_app_intro.
    + apply keep_NoDup. eapply NoDup_app_l; eauto.
    + apply keep_NoDup. eapply NoDup_app_r; eauto.
    + intros x Hx Hy. apply keep_incl in Hx, Hy. eapply NoDup_app_disj; eauto.
  - intros ti Hi. apply Hr. apply in_app_or in Hi. apply in_or_app.
    destruct Hi as [Hi|Hi]; apply keep_incl in Hi; auto.
  - rewrite <- !keep_map, H0. reflexivity.
  - rewrite <- !keep_map, H1. reflexivity.
Qed.

Lemma remove_odd_wf : forall d s, wf d s -> wf (remove_odd_tracks d) (evens (fst s), evens (snd s)).
Proof.
  intros d s H. unfold remove_odd_tracks, odd_positions. rewrite !remove_positions_keep.
  rewrite <- (keep_evens _ (fst s) (le_n _)), <- (keep_evens _ (snd s) (le_n _)). apply keep_wf, H.
Qed.

Lemma empty_positions_ok : forall pool m l e, map (nth_error pool) m = map Some l ->
  empty_positions pool m = Ok e -> e = filter (fun i => match nth_error l i with Some t => negb (has_sectors t) | None => false end) (seq 0 (length m)).
Proof.
  intros pool m l e Hm H. unfold empty_positions in H.
  assert (G : forall m l k acc e, map (nth_error pool) m = map Some l ->
    ofold (fun acc '(i, ti) => let! t := oindex pool ti in let! n := tk_sector_ct t in
       Ok (if n =? 0 then acc ++ [i] else acc)) (combine (seq k (length m)) m) acc = Ok e ->
    e = acc ++ filter (fun i => match nth_error l (i - k) with Some t => negb (has_sectors t) | None => false end) (seq k (length m))).
  { clear. induction m as [|x m IH]; intros l k acc e Hm H; [cbn in H |- *; inversion H; rewrite app_nil_r; reflexivity|].
    destruct l as [|y l]; [discriminate|]. cbn in Hm. inversion Hm as [[Hx Hm']].
    cbn [length seq combine ofold] in H. unfold oindex in H. rewrite Hx in H. cbn [obind] in H.
    destruct (tk_sector_ct y) as [n|er|] eqn:En; cbn [obind] in H; try discriminate.
    apply (IH l (S k) _ _ Hm') in H. subst e. cbn [length seq filter]. rewrite Nat.sub_diag. cbn [nth_error].
    unfold has_sectors at 2. rewrite En.
    assert (E : filter (fun i => match nth_error (y :: l) (i - k) with Some t => negb (has_sectors t) | None => false end) (seq (S k) (length m))
              = filter (fun i => match nth_error l (i - S k) with Some t => negb (has_sectors t) | None => false end) (seq (S k) (length m))).
    { apply filter_ext_in. intros i Hi. apply in_seq in Hi. replace (i - k) with (S (i - S k)) by lia. reflexivity. }
    rewrite E. destruct n as [|n]; cbn [Nat.eqb negb]; [rewrite <- app_assoc|]; reflexivity. }
  rewrite (G m l 0 [] e Hm H). cbn [app]. apply filter_ext. intros i. rewrite Nat.sub_0_r. reflexivity.
Qed.
Lemma remove_empty_wf : forall d s d', wf d s -> remove_empty_tracks d = Ok d' ->
  wf d' (filter has_sectors (fst s), filter has_sectors (snd s)).
Proof.
  intros d s d' H E. unfold remove_empty_tracks in E.
  destruct (empty_positions (di_pool d) (di_map0 d)) as [e0|er|] eqn:E0; cbn [obind] in E; try discriminate.
  destruct (empty_positions (di_pool d) (di_map1 d)) as [e1|er|] eqn:E1; cbn [obind] in E; try discriminate.
  inversion E; subst d'; clear E. pose proof H as [_ [H0 H1]].
  rewrite (empty_positions_ok _ _ _ _ H0 E0), (empty_positions_ok _ _ _ _ H1 E1), !remove_positions_keep.
  assert (F : forall l, filter has_sectors l = keep (fun i => match nth_error l i with Some t => negb (has_sectors t) | None => false end) l).
  { intros l. symmetry. apply keep_filter. intros i x Hx. rewrite Hx. reflexivity. }
  rewrite (F (fst s)), (F (snd s)).
  pose proof (keep_wf d s (fun i => match nth_error (fst s) i with Some t => negb (has_sectors t) | None => false end)
    (fun i => match nth_error (snd s) i with Some t => negb (has_sectors t) | None => false end) H) as G. exact G.
Qed.

(* ---- renumbering ---- *)
Lemma set_ch_same : forall t, tk_set_ch t (mkCh (ch_c (tk_ch t)) (ch_h (tk_ch t))) = t.
Proof. intros [[[c h] l]|[[c h] a b e]|[[c h] a b e]]; reflexivity. Qed.
Lemma remap_loop : forall m pool l c p c', NoDup m ->
  map (nth_error pool) m = map Some l ->
  ofold (fun '(pool, c) ti =>
      let! t := oindex pool ti in
      let ch := tk_ch t in
      let pool := if (ch_c ch =? c)%N then pool else upd pool ti (tk_set_ch t (mkCh c (ch_h ch))) in
      if (c =? 65535)%N then Panic else Ok (pool, (c + 1)%N)) m (pool, c) = Ok (p, c') ->
  length p = length pool /\ map (nth_error p) m = map Some (numbered_from c l) /\
  (forall ti, ~ In ti m -> nth_error p ti = nth_error pool ti).
Proof.
  induction m as [|x m IH]; intros pool l c p c' Hnd Hm H.
  - destruct l; [|discriminate]. cbn in H. inversion H; subst. repeat split; auto.
  - destruct l as [|y l]; [discriminate|]. cbn [map] in Hm. inversion Hm as [[Hx Hm']]. inversion Hnd as [|? ? Hnx Hnd']; subst.
    cbn [ofold] in H. unfold oindex at 1 in H. rewrite Hx in H. cbn [obind] in H.
    destruct (c =? 65535)%N eqn:Ec; [discriminate|]. cbn [obind] in H.
    assert (Hxl : x < length pool) by (apply nth_error_Some; congruence).
    set (pool' := if (ch_c (tk_ch y) =? c)%N then pool else upd pool x (tk_set_ch y (mkCh c (ch_h (tk_ch y))))) in H.
    assert (Hl' : length pool' = length pool) by (unfold pool'; destruct (ch_c (tk_ch y) =? c)%N; [reflexivity|apply upd_length]).
    assert (Hx' : nth_error pool' x = Some (tk_set_ch y (mkCh c (ch_h (tk_ch y))))).
    { unfold pool'. destruct (ch_c (tk_ch y) =? c)%N eqn:Ey.
      - apply N.eqb_eq in Ey. rewrite Hx. f_equal. rewrite <- Ey. symmetry. apply set_ch_same.
      - apply nth_error_upd_same. exact Hxl. }
    assert (Ho' : forall ti, ti <> x -> nth_error pool' ti = nth_error pool ti).
    { intros ti Hti. unfold pool'. destruct (ch_c (tk_ch y) =? c)%N; [reflexivity|]. apply nth_error_upd_other. auto. }
    assert (Hm'' : map (nth_error pool') m = map Some l).
    { rewrite <- Hm'. apply map_ext_in. intros a Ha. apply Ho'. intro; subst; auto. }
    destruct (IH pool' l (c + 1)%N p c' Hnd' Hm'' H) as (L & M & O).
    split; [congruence|]. split.
    + cbn [map numbered_from]. rewrite M. f_equal. rewrite (O x Hnx). exact Hx'.
    + intros ti Hti. rewrite (O ti) by (intro; apply Hti; right; auto). apply Ho'. intro; subst; apply Hti; left; auto.
Qed.
Lemma remap_wf : forall d s d', wf d s -> remap_tracks d = Ok d' ->
  wf d' (numbered_from 0 (fst s), numbered_from 0 (snd s)).
Proof.
  intros d s d' [[Hnd Hr] [H0 H1]] H. unfold remap_tracks, remap_head in H.
  destruct (ofold _ (di_map0 d) _) as [[p c]|er|] eqn:E0 in H; cbn [obind] in H; try discriminate.
  destruct (ofold _ (di_map1 d) _) as [[p' c']|er|] eqn:E1 in H; cbn [obind] in H; try discriminate.
  inversion H; subst d'; clear H.
  destruct (remap_loop _ _ _ _ _ _ (NoDup_app_l _ _ Hnd) H0 E0) as (L0 & M0 & O0).
  assert (H1' : map (nth_error p) (di_map1 d) = map Some (snd s)).
  { rewrite <- H1. apply map_ext_in. intros a Ha. apply O0. intro Hi. eapply NoDup_app_disj; eauto. }
  destruct (remap_loop _ _ _ _ _ _ (NoDup_app_r _ _ Hnd) H1' E1) as (L1 & M1 & O1).
  split; [split|split]; cbn.
  - exact Hnd.
  - intros ti Hi. rewrite L1, L0. auto.
  - rewrite <- M0. apply map_ext_in. intros a Ha. apply O1. intro Hi. eapply NoDup_app_disj; eauto.
  - exact M1.
Qed.

(* ---- histories ---- *)
Lemma wf_ext : forall d d' s, di_pool d' = di_pool d -> di_map0 d' = di_map0 d -> di_map1 d' = di_map1 d -> wf d s -> wf d' s.
Proof. intros d d' s Hp H0 H1 H. unfold wf, maps_valid, sees in *. rewrite Hp, H0, H1. exact H. Qed.
Lemma with_res_wf : forall d s r, wf d s -> wf (with_res d r) s.
Proof. intros d s r H. eapply wf_ext; [..|exact H]; reflexivity. Qed.
Lemma analyze_same : forall d d', di_analyze d = Ok d' ->
  di_pool d' = di_pool d /\ di_map0 d' = di_map0 d /\ di_map1 d' = di_map1 d /\ di_res d' = di_res d /\ di_multires d' = di_multires d.
Proof.
  intros d d' H. unfold di_analyze in H. destruct (ofold _ _ _) in H; cbn [obind] in H; inversion H; subst; cbn; auto.
Qed.

Lemma call_wf : forall rnd op d s d' ok, wf d s -> call rnd op d = Some (d', ok) ->
  exists s', wf d' s' /\ if ok then effect rnd s op s' else s' = s.
Proof.
  intros rnd op d s d' ok Hwf H. destruct op; cbn [call] in H.
  - unfold report, add_track_metasector in H. destruct (2 <=? ch_h ch)%N eqn:Eh; [inversion H; subst; eauto|].
    apply N.leb_gt in Eh. destruct (res_rejects d RMetaSector); inversion H; subst; [eauto|].
    eexists. split; [apply push_wf; [apply with_res_wf; eauto|exact Eh]|]. constructor. exact Eh.
  - unfold report, add_track_bitstream in H. destruct (2 <=? ch_h ch)%N eqn:Eh; [inversion H; subst; eauto|].
    apply N.leb_gt in Eh. destruct (res_rejects d RBitStream); [inversion H; subst; eauto|].
    destruct (bt_new _ _ _ _ _ _) as [t|e|] eqn:Et; inversion H; subst.
    + eexists. split; [apply push_wf; [apply with_res_wf; eauto|exact Eh]|]. econstructor; eauto.
    + eexists. split; [apply with_res_wf; eauto|reflexivity].
  - unfold report, add_track_fluxstream in H. destruct (2 <=? ch_h ch)%N eqn:Eh; [inversion H; subst; eauto|].
    apply N.leb_gt in Eh. destruct (res_rejects d RFluxStream); [inversion H; subst; eauto|].
    destruct decoded as [bs|e|]; inversion H; subst.
    + eexists. split; [apply push_wf; [apply with_res_wf; eauto|exact Eh]|].
      apply EffFlux; [exact Eh| |]; unfold analyze_revolutions; cbn [ft_revs]; destruct (length bs); reflexivity.
    + eexists. split; [apply with_res_wf; eauto|reflexivity].
  - unfold report, add_empty_track in H. destruct (2 <=? ch_h ch)%N eqn:Eh; [inversion H; subst; eauto|].
    apply N.leb_gt in Eh. destruct (match res with Some r => res_rejects d r | None => false end); [inversion H; subst; eauto|].
    remember (match res with Some r => with_res d (res_insert r (di_res d)) | None => d end) as d1 eqn:Ed1.
    assert (Hwf1 : wf d1 s) by (subst d1; destruct res; [apply with_res_wf|]; exact Hwf). clear Ed1 Hwf.
    destruct (di_res d1) as [|r0 rs] eqn:Er; [inversion H; subst; eauto|]. rewrite <- Er in H. clear Er r0 rs.
    assert (Hm : exists m, head_map d1 (ch_h ch) = Ok m /\ length m = length (side s (ch_h ch))).
    { destruct Hwf1 as [_ [A B]]. assert (E : ch_h ch = 0%N \/ ch_h ch = 1%N) by lia.
      destruct E as [E|E]; rewrite E; cbn [head_map side]; eexists; (split; [reflexivity|]);
        [exact (map_some_len _ _ _ A) | exact (map_some_len _ _ _ B)]. }
    destruct Hm as (m & Em & Lm). rewrite Em in H.
    destruct (negb (length m =? N.to_nat (ch_c ch))) eqn:Esp.
    + destruct (res_min (di_res d1)); inversion H; subst; eauto.
    + apply negb_false_iff, Nat.eqb_eq in Esp. destruct (res_min (di_res d1)).
      * inversion H; subst. eexists. split; [apply push_wf; eauto|]. constructor; [exact Eh|left; reflexivity|lia].
      * destruct (mfm_new (empty_bits cells clk) None None) as [ms|e|] eqn:Ems; inversion H; subst; [|eauto].
        eexists. split; [apply push_wf; eauto|]. constructor; [exact Eh|right; exists ms; split; [exact Ems|reflexivity]|lia].
      * inversion H; subst; eauto.
  - destruct (seek_track d ch) as [[ti t0]|e|] eqn:E; try discriminate; [|inversion H; subst; eauto].
    destruct (res_eqb _ _); inversion H; subst; [|eauto].
    eexists. split; [eapply replace_wf; eauto|]. destruct (seek_track_inv _ _ _ _ _ Hwf E) as (A & B & _). econstructor; eauto.
  - unfold report1, di_write_sector in H. destruct (seek_track d ch) as [[ti t0]|e|] eqn:E; cbn [obind omap] in H; try discriminate; [|inversion H; subst; eauto].
    destruct (tk_write_sector t0 q offset data DataOnly deleted debug) as [[t' w]|e|] eqn:Ew; unfold omap in H; cbn [obind fst] in H; try discriminate; inversion H; subst; [|eauto].
    eexists. split; [eapply replace_wf; eauto|]. destruct (seek_track_inv _ _ _ _ _ Hwf E) as (A & B & _). econstructor; eauto.
  - unfold report1, di_format_track in H. destruct (seek_track d ch) as [[ti t0]|e|] eqn:E; cbn [obind] in H; try discriminate; [|inversion H; subst; eauto].
    destruct (tk_format rnd t0 SIso ids pat gap3) as [t'|e|] eqn:Ew; cbn [obind] in H; try discriminate; [|inversion H; subst; eauto].
    destruct (di_analyze _) as [d2|e|] eqn:Ea in H; inversion H; subst; [|eauto].
    destruct (analyze_same _ _ Ea) as (P & M0 & M1 & _).
    eexists. split; [eapply wf_ext; [exact P|exact M0|exact M1|eapply replace_wf; eauto]|].
    destruct (seek_track_inv _ _ _ _ _ Hwf E) as (A & B & _). econstructor; eauto.
  - unfold report1 in H. destruct (remove_empty_tracks d) as [d2|e|] eqn:E; inversion H; subst; [|eauto].
    eexists. split; [eapply remove_empty_wf; eauto|constructor].
  - inversion H; subst. eexists. split; [eapply remove_odd_wf; eauto|constructor].
  - unfold report1 in H. destruct (remap_tracks d) as [d2|e|] eqn:E; inversion H; subst; [|eauto].
    eexists. split; [eapply remap_wf; eauto|constructor].
  - inversion H; subst. exists ([], []). split; [|constructor]. repeat split; try constructor. intros ti [].
  - unfold report1 in H. destruct (di_analyze d) as [d2|e|] eqn:E; inversion H; subst; [|eauto].
    destruct (analyze_same _ _ E) as (P & M0 & M1 & _).
    exists s. split; [eapply wf_ext; eauto|constructor].
  - inversion H; subst. exists s. split; [eapply wf_ext; [..|exact Hwf]; reflexivity|constructor].
  - inversion H; subst. exists s. split; [apply with_res_wf; exact Hwf|constructor].
Qed.
Lemma calls_wf : forall rnd ops d s d' oks, wf d s -> calls rnd ops d = Some (d', oks) ->
  exists s', wf d' s' /\ effects rnd s ops oks s'.
Proof.
  induction ops as [|op ops IH]; intros d s d' oks Hwf H; cbn [calls] in H.
  - inversion H; subst. exists s. split; [exact Hwf|constructor].
  - destruct (call rnd op d) as [[d1 ok]|] eqn:E; [|discriminate].
    destruct (calls rnd ops d1) as [[d2 oks']|] eqn:E'; [|discriminate]. inversion H; subst.
    destruct (call_wf _ _ _ _ _ _ Hwf E) as (s1 & Hwf1 & He).
    destruct (IH _ _ _ _ Hwf1 E') as (s2 & Hwf2 & He2). exists s2. split; [exact Hwf2|].
    destruct ok; [econstructor; eauto|]. subst s1. constructor. exact He2.
Qed.
Lemma empty_wf : forall d, di_pool d = [] -> di_map0 d = [] -> di_map1 d = [] -> wf d ([], []).
Proof. intros d P M0 M1. unfold wf, maps_valid, sees. rewrite P, M0, M1. repeat split; try constructor. intros ti []. Qed.

(* ---- iteration ---- *)
Definition positions (n0 n1 : nat) : list (nat * nat) :=
  flat_map (fun i => (if i <? n0 then [(i, 0)] else []) ++ (if i <? n1 then [(i, 1)] else [])) (seq 0 (Nat.max n0 n1)).
Lemma positions_sorted : forall n0 n1, StronglySorted pos_lt (positions n0 n1).
Proof.
  intros n0 n1. unfold positions. generalize (Nat.max n0 n1) as n. intros n.
  assert (G : forall n k, StronglySorted pos_lt (flat_map (fun i => (if i <? n0 then [(i, 0)] else []) ++ (if i <? n1 then [(i, 1)] else [])) (seq k n))
     /\ Forall (fun p => k <= fst p) (flat_map (fun i => (if i <? n0 then [(i, 0)] else []) ++ (if i <? n1 then [(i, 1)] else [])) (seq k n))).
  { clear. induction n as [|n IH]; intros k; [split; constructor|]. cbn [seq flat_map].
    destruct (IH (S k)) as [A B].
    assert (C : Forall (fun p : nat * nat => k <= fst p) (flat_map (fun i => (if i <? n0 then [(i, 0)] else []) ++ (if i <? n1 then [(i, 1)] else [])) (seq (S k) n))).
    { eapply Forall_impl; [|exact B]. intros p Hp. cbn in *. lia. }
    assert (D : forall h, Forall (pos_lt (k, h)) (flat_map (fun i => (if i <? n0 then [(i, 0)] else []) ++ (if i <? n1 then [(i, 1)] else [])) (seq (S k) n))).
    { intros h. eapply Forall_impl; [|exact B]. intros p Hp. left. cbn in *. lia. }
    destruct (k <? n0), (k <? n1); cbn [app]; (split; [|repeat constructor; auto]).
    - constructor; [constructor; [exact A|apply D]|]. constructor; [right; cbn; lia|apply D].
    - constructor; [exact A|apply D].
    - constructor; [exact A|apply D].
    - exact A. }
  apply G.
Qed.
Lemma positions_in : forall n0 n1 c h, In (c, h) (positions n0 n1) <-> (h = 0 /\ c < n0) \/ (h = 1 /\ c < n1).
Proof.
  intros n0 n1 c h. unfold positions. rewrite in_flat_map. split.
  - intros (i & Hi & H). apply in_app_or in H. destruct H as [H|H].
    + destruct (i <? n0) eqn:E; [|destruct H]. destruct H as [H|[]]. inversion H; subst. apply Nat.ltb_lt in E. auto.
    + destruct (i <? n1) eqn:E; [|destruct H]. destruct H as [H|[]]. inversion H; subst. apply Nat.ltb_lt in E. auto.
  - intros [[-> H]|[-> H]]; exists c; (split; [apply in_seq; lia|]); apply in_or_app; apply Nat.ltb_lt in H; rewrite H; cbn; auto.
Qed.
Lemma flat_map_cons : forall {A B} (f : A -> list B) x l, flat_map f (x :: l) = f x ++ flat_map f l.
Proof. reflexivity. Qed.
Lemma track_iter_positions : forall d s, wf d s ->
  map Some (track_iter d) = map (fun p => nth_error (side s (N.of_nat (snd p))) (fst p)) (positions (length (fst s)) (length (snd s))).
Proof.
  intros d s [_ [H0 H1]]. unfold track_iter, positions.
  rewrite <- (map_some_len _ _ _ H0), <- (map_some_len _ _ _ H1).
  induction (seq 0 _) as [|i l IH]; [reflexivity|]. rewrite 2 (flat_map_cons (A := nat)). rewrite (map_app Some), map_app, IH. f_equal.
  cbn [flat_map]. rewrite app_nil_r, !map_app. f_equal.
  - pose proof (map_some_nth _ _ _ i H0) as E. destruct (nth_error (di_map0 d) i) as [ti|] eqn:En.
    + assert (L : i < length (di_map0 d)) by (apply nth_error_Some; congruence). apply Nat.ltb_lt in L. rewrite L.
      cbn [map fst snd side N.of_nat]. rewrite <- E.
      assert (L' : i < length (fst s)) by (rewrite <- (map_some_len _ _ _ H0); apply Nat.ltb_lt; exact L).
      destruct (nth_error (di_pool d) ti); [reflexivity|]. exfalso. symmetry in E. apply nth_error_None in E. lia.
    + assert (L : (i <? length (di_map0 d)) = false) by (apply Nat.ltb_ge, nth_error_None; exact En). rewrite L. reflexivity.
  - pose proof (map_some_nth _ _ _ i H1) as E. destruct (nth_error (di_map1 d) i) as [ti|] eqn:En.
    + assert (L : i < length (di_map1 d)) by (apply nth_error_Some; congruence). apply Nat.ltb_lt in L. rewrite L.
      cbn [map fst snd side N.of_nat Pos.of_succ_nat]. rewrite <- E.
      assert (L' : i < length (snd s)) by (rewrite <- (map_some_len _ _ _ H1); apply Nat.ltb_lt; exact L).
      destruct (nth_error (di_pool d) ti); [reflexivity|]. exfalso. symmetry in E. apply nth_error_None in E. lia.
    + assert (L : (i <? length (di_map1 d)) = false) by (apply Nat.ltb_ge, nth_error_None; exact En). rewrite L. reflexivity.
Qed.
