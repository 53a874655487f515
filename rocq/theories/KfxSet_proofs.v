(* KfxSet_proofs.v - which files make up a KryoFlux set, and loading them one after the other. *)
From Verif Require Import Base Base_lemmas Chs_model BitRing_model Mfm_model Types_model System34_model MetaSector_model BitStream_model DiskImage_model DiskImage_spec DiskImage_proofs Raw_model F86_model Hxc_model Flux_model Flux_spec Flux_proofs Pll_model Pfi2_proofs Pfi3_proofs Kfx_model Kfx_spec.
From Coq Require Import Lia.
Import ListNotations.
Local Open Scope nat_scope.

Definition has (listing : list Path) (base : list N) (c h : N) : bool :=
  existsb (fun f => if list_eq_dec N.eq_dec (map lower (snd f)) (test_name base c h) then true else false) listing.
Definition put (dir base : list N) (listing : list Path) (c h : N) (s : KfxSet) : KfxSet :=
  if has listing base c h then mkKS (ks_files s ++ [(dir, test_name base c h)]) (insert_new c (ks_cyls s)) (insert_new (2 * h) (ks_heads s)) else s.
Definition cyl (dir base : list N) (listing : list Path) (s : KfxSet) (c : nat) : KfxSet :=
  put dir base listing (N.of_nat c) 1 (put dir base listing (N.of_nat c) 0 s).
Lemma search_stop fuel dir base listing c s : (79 < c)%N -> has listing base c 0 = false -> kfx_search (S fuel) dir base listing c 0 s = Ok s.
Proof.
  intros Hc H. cbn [kfx_search]. fold (has listing base c 0). rewrite H. cbn [andb negb]. change (0 =? 0)%N with true. replace (79 <? c)%N with true by (symmetry; apply N.ltb_lt; exact Hc).
  change (1 <? 0 + 1)%N with false. reflexivity.
Qed.
Lemma search_cyl fuel dir base listing c s : (N.of_nat c < 65535)%N -> (N.of_nat c <= 79)%N \/ has listing base (N.of_nat c) 0 = true ->
  kfx_search (S (S fuel)) dir base listing (N.of_nat c) 0 s = kfx_search fuel dir base listing (N.of_nat (S c)) 0 (cyl dir base listing s c).
Proof.
  intros Hm Hc. remember (S fuel) as f1 eqn:Ef. cbn [kfx_search]. fold (has listing base (N.of_nat c) 0).
  assert (Stop : negb (has listing base (N.of_nat c) 0) && (0 =? 0)%N && (79 <? N.of_nat c)%N = false).
  { destruct Hc as [Hc | ->]; [replace (79 <? N.of_nat c)%N with false by (symmetry; apply N.ltb_ge; exact Hc); apply andb_false_r|reflexivity]. }
  rewrite Stop. replace (if has listing base (N.of_nat c) 0 && (0 <? 0)%N then (0 + 1)%N else 0%N) with 0%N by (change (0 <? 0)%N with false; rewrite andb_false_r; reflexivity).
  change (1 <? 0 + 1)%N with false. cbn [andb]. change (0 + 1)%N with 1%N. fold (put dir base listing (N.of_nat c) 0 s).
  change (if has listing base (N.of_nat c) 0 then mkKS (ks_files s ++ [(dir, test_name base (N.of_nat c) 0)]) (insert_new (N.of_nat c) (ks_cyls s)) (insert_new 0 (ks_heads s)) else s) with (put dir base listing (N.of_nat c) 0 s).
  unfold cyl. generalize (put dir base listing (N.of_nat c) 0 s). clear s Stop Hc. intros s. subst f1. cbn [kfx_search]. fold (has listing base (N.of_nat c) 1).
  change (1 =? 0)%N with false. rewrite andb_false_r. cbn [andb]. replace (N.of_nat c =? 65535)%N with false by (symmetry; apply N.eqb_neq; lia). rewrite andb_false_r.
  replace (N.of_nat (S c)) with (N.of_nat c + 1)%N by lia. unfold put. destruct (has listing base (N.of_nat c) 1); reflexivity.
Qed.
Lemma search_run dir base listing C : (79 < N.of_nat C)%N -> (N.of_nat C < 65535)%N -> has listing base (N.of_nat C) 0 = false ->
  (forall c, (79 < N.of_nat c)%N -> c < C -> has listing base (N.of_nat c) 0 = true) ->
  forall k c fuel s, c + k = C -> 2 * k < fuel -> kfx_search fuel dir base listing (N.of_nat c) 0 s = Ok (fold_left (cyl dir base listing) (seq c k) s).
Proof.
  intros H80 Hm Hno Hyes. induction k as [|k IH]; intros c fuel s Ec Hf.
  - assert (c = C) by lia. subst c. destruct fuel as [|fuel]; [lia|]. rewrite search_stop by assumption. reflexivity.
  - destruct fuel as [|[|fuel]]; [lia|lia|]. rewrite search_cyl.
    + rewrite IH by lia. reflexivity.
    + lia.
    + destruct (N.le_gt_cases (N.of_nat c) 79) as [|G]; [left; assumption|right; apply Hyes; [exact G|lia]].
Qed.

(* what has been collected after C cylinders *)
Definition both (C : nat) : list (N * N) := flat_map (fun c => [(N.of_nat c, 0%N); (N.of_nat c, 1%N)]) (seq 0 C).
Definition cyls_with (listing : list Path) (base : list N) (C : nat) : list N := filter (fun c => has listing base c 0 || has listing base c 1) (map N.of_nat (seq 0 C)).
Definition head_in (listing : list Path) (base : list N) (C : nat) (h : N) : bool := existsb (fun c => has listing base c h) (map N.of_nat (seq 0 C)).
Record gathered (dir base : list N) (listing : list Path) (C : nat) (s : KfxSet) : Prop := {
  g_files : ks_files s = map (fun x => (dir, test_name base (fst x) (snd x))) (filter (fun x => has listing base (fst x) (snd x)) (both C));
  g_cyls : ks_cyls s = cyls_with listing base C;
  g_h0 : existsb (N.eqb 0) (ks_heads s) = head_in listing base C 0;
  g_h1 : existsb (N.eqb 2) (ks_heads s) = head_in listing base C 1;
  g_len : length (ks_heads s) = Nat.b2n (head_in listing base C 0) + Nat.b2n (head_in listing base C 1) }.
Lemma cyls_small listing base C x : In x (cyls_with listing base C) -> (x < N.of_nat C)%N.
Proof. unfold cyls_with. intros H. apply filter_In in H. destruct H as [H _]. apply in_map_iff in H. destruct H as (y & <- & Hy). apply in_seq in Hy. lia. Qed.
Lemma fresh x l : (forall y, In y l -> (y < x)%N) -> existsb (N.eqb x) l = false.
Proof. induction l as [|y l IH]; intros H; [reflexivity|]. cbn [existsb]. pose proof (H y (or_introl eq_refl)). replace (x =? y)%N with false by (symmetry; apply N.eqb_neq; lia). apply IH. intros z Hz. apply H. right. exact Hz. Qed.
Lemma insert_head l x h0 h1 : (x = 0 \/ x = 2)%N -> existsb (N.eqb 0) l = h0 -> existsb (N.eqb 2) l = h1 -> length l = Nat.b2n h0 + Nat.b2n h1 ->
  existsb (N.eqb 0) (insert_new x l) = (h0 || (x =? 0)%N) /\ existsb (N.eqb 2) (insert_new x l) = (h1 || (x =? 2)%N) /\ length (insert_new x l) = Nat.b2n (h0 || (x =? 0)%N) + Nat.b2n (h1 || (x =? 2)%N).
Proof.
  intros Hx H0 H1 HL. unfold insert_new. destruct Hx as [-> | ->]; [rewrite H0; destruct h0|rewrite H1; destruct h1]; rewrite ?existsb_app, ?app_length, ?H0, ?H1, ?HL; try destruct h0; try destruct h1; cbn; auto.
Qed.
Lemma gathered_start dir base listing : gathered dir base listing 0 (mkKS [] [] []).
Proof. constructor; reflexivity. Qed.
Lemma gathered_step dir base listing C s : gathered dir base listing C s -> gathered dir base listing (S C) (cyl dir base listing s C).
Proof.
  intros [F Cy H0 H1 L]. unfold cyl, put at 1. set (c := N.of_nat C).
  assert (Eb : both (S C) = both C ++ [(c, 0%N); (c, 1%N)]) by (unfold both; rewrite seq_S, flat_map_app; reflexivity).
  assert (Ec : cyls_with listing base (S C) = cyls_with listing base C ++ if has listing base c 0 || has listing base c 1 then [c] else []).
  { unfold cyls_with. rewrite seq_S, map_app, filter_app. cbn [Nat.add map filter]. fold c. destruct (_ || _); reflexivity. }
  assert (Eh : forall h, head_in listing base (S C) h = head_in listing base C h || has listing base c h).
  { intros h. unfold head_in. rewrite seq_S, map_app, existsb_app. cbn [Nat.add map existsb]. rewrite orb_false_r. reflexivity. }
  assert (Fr : existsb (N.eqb c) (ks_cyls s) = false) by (rewrite Cy; apply fresh; intros y Hy; exact (cyls_small _ _ _ _ Hy)).
  assert (Fr2 : existsb (N.eqb c) (ks_cyls s ++ [c]) = true) by (rewrite existsb_app; cbn [existsb]; rewrite N.eqb_refl, orb_true_r; reflexivity).
  assert (I1 : insert_new c (ks_cyls s) = ks_cyls s ++ [c]) by (unfold insert_new; rewrite Fr; reflexivity).
  assert (I2 : insert_new c (ks_cyls s ++ [c]) = ks_cyls s ++ [c]) by (unfold insert_new; rewrite Fr2; reflexivity).
  destruct (insert_head (ks_heads s) 0 _ _ (or_introl eq_refl) H0 H1 L) as (A0 & A1 & A2). change (0 =? 0)%N with true in *. change (0 =? 2)%N with false in *. rewrite orb_false_r in A1, A2. rewrite orb_true_r in A0, A2.
  destruct (insert_head (ks_heads s) 2 _ _ (or_intror eq_refl) H0 H1 L) as (B0 & B1 & B2). change (2 =? 0)%N with false in *. change (2 =? 2)%N with true in *. rewrite orb_false_r in B0, B2. rewrite orb_true_r in B1, B2.
  destruct (insert_head (insert_new 0 (ks_heads s)) 2 _ _ (or_intror eq_refl) A0 A1 A2) as (D0 & D1 & D2). change (2 =? 0)%N with false in *. change (2 =? 2)%N with true in *. rewrite orb_false_r in D0, D2. rewrite orb_true_r in D1, D2.
  unfold put. change (2 * 0)%N with 0%N. change (2 * 1)%N with 2%N.
  destruct (has listing base c 0) eqn:E0; destruct (has listing base c 1) eqn:E1; cbn [orb] in Ec; constructor; cbn [ks_files ks_cyls ks_heads]; rewrite ?Ec, ?Eh, ?E0, ?E1, ?orb_true_r, ?orb_false_r; try assumption;
    try (rewrite Eb, filter_app, map_app, F; cbn [filter fst snd]; rewrite E0, E1; cbn [map]; rewrite ?app_nil_r, <- ?app_assoc; reflexivity); try (rewrite I1, ?I2, Cy; reflexivity); try (rewrite app_nil_r; exact Cy).
Qed.
Lemma gathered_all dir base listing C : gathered dir base listing C (fold_left (cyl dir base listing) (seq 0 C) (mkKS [] [] [])).
Proof. induction C as [|C IH]; [apply gathered_start|]. rewrite seq_S, fold_left_app. cbn [Nat.add fold_left]. apply gathered_step. exact IH. Qed.
Lemma has_iff listing base c h : has listing base c h = true <-> exists f, In f listing /\ map lower (snd f) = test_name base c h.
Proof.
  unfold has. rewrite existsb_exists. split; intros (f & A & B); exists f; (split; [exact A|]).
  - destruct (list_eq_dec _ _ _); [assumption|discriminate].
  - destruct (list_eq_dec _ _ _); [reflexivity|contradiction].
Qed.

(* ---- loading ---- *)
Record loaded (heads n : nat) (geom : DiskCh) (f : nat -> DTrack) (d : DiskImage) (s : Heads) : Prop := {
  l_wf : wf d s; l_free : flux_free d; l_geom : di_geom d = geom; l_laid : laid heads n f s; l_ch : forall i, i < n -> tk_ch (f i) = ch_at heads i }.
Lemma seek_next heads c n : heads = 1 \/ heads = 2 -> S n < c * heads -> fst (seek_next_track (ch_at heads n) (mkCh (N.of_nat c) (N.of_nat heads))) = ch_at heads (S n).
Proof.
  intros Hh Hn. unfold seek_next_track, next_track, ch_at. cbn [ch_c ch_h]. destruct Hh as [-> | ->].
  - rewrite !Nat.mod_1_r, !Nat.div_1_r. rewrite Nat.mul_1_r in Hn. change (N.of_nat 1 - 1)%N with 0%N. change (N.of_nat 0) with 0%N.
    replace (N.of_nat n =? N.of_nat c - 1)%N with false by (symmetry; apply N.eqb_neq; lia). cbn [andb fst]. change (0 <? 0)%N with false. cbn iota. replace (N.of_nat n <? N.of_nat c - 1)%N with true by (symmetry; apply N.ltb_lt; lia). f_equal. lia.
  - pose proof (Nat.div_mod n 2 ltac:(discriminate)) as D. pose proof (Nat.mod_upper_bound n 2 ltac:(discriminate)) as U. change (N.of_nat 2 - 1)%N with 1%N. set (q := n / 2) in *. set (r := n mod 2) in *.
    assert (Hr : r = 0 \/ r = 1) by lia. destruct Hr as [R|R]; rewrite R in *.
    + assert (E1 : S n / 2 = q) by (symmetry; apply (Nat.div_unique _ 2 q 1); lia). assert (E2 : S n mod 2 = 1) by (symmetry; apply (Nat.mod_unique _ 2 q 1); lia). rewrite E1, E2. change (N.of_nat 0) with 0%N. change (1 <=? 0)%N with false. rewrite andb_false_r. reflexivity.
    + assert (E1 : S n / 2 = S q) by (symmetry; apply (Nat.div_unique _ 2 _ 0); lia). assert (E2 : S n mod 2 = 0) by (symmetry; apply (Nat.mod_unique _ 2 (S q) 0); lia). rewrite E1, E2. change (N.of_nat 1) with 1%N.
      replace (N.of_nat q =? N.of_nat c - 1)%N with false by (symmetry; apply N.eqb_neq; lia). cbn [andb fst]. change (1 <? 1)%N with false. cbn iota. replace (N.of_nat q <? N.of_nat c - 1)%N with true by (symmetry; apply N.ltb_lt; lia). f_equal. lia.
Qed.
Lemma next_ch_set heads c n f d s : heads = 1 \/ heads = 2 -> n < c * heads -> loaded heads n (mkCh (N.of_nat c) (N.of_nat heads)) f d s -> kfx_next_ch d = Ok (ch_at heads n).
Proof.
  intros Hh Hn [W _ G La Ch]. unfold kfx_next_ch. destruct n as [|n].
  - rewrite (ch_iter_ok d s W). destruct La as (L0 & L1 & _). assert (E0 : fst s = [] /\ snd s = []) by (destruct Hh as [-> | ->]; cbn in L0, L1; split; apply length_zero_iff_nil; assumption).
    destruct E0 as [-> ->]. cbn [length Nat.max seq flat_map map rev obind]. destruct Hh as [-> | ->]; reflexivity.
  - destruct (last_ch_ok d s heads n f W Hh La Ch) as (l & ->). cbn [obind]. rewrite rev_unit, G. f_equal. apply seek_next; assumption.
Qed.
Lemma files_load dec heads c (f : nat -> DTrack) (tracks : nat -> list BitTrack) (all : list (list N)) (xs : list (Infos * list Rev)) : heads = 1 \/ heads = 2 -> length all <= c * heads -> length xs = length all ->
  (forall i, f i = flux_track (ch_at heads i) (tracks i)) ->
  (forall i file x, nth_error all i = Some file -> nth_error xs i = Some x -> kfx_stream file = Ok x /\ dec (firstn i xs) (fst x) (ch_at heads i) (synthesize (snd x)) = Ok (tracks i)) ->
  forall more n d s, n <= length all -> loaded heads n (mkCh (N.of_nat c) (N.of_nat heads)) f d s ->
  exists d' s', loaded heads (length all) (mkCh (N.of_nat c) (N.of_nat heads)) f d' s' /\ kfx_load_files dec (firstn n xs) d (map Some (skipn n all) ++ more) = kfx_load_files dec xs d' more.
Proof.
  intros Hh Hc Hl Hf H more n. remember (length all - n) as k eqn:Ek. revert n Ek. induction k as [|k IH]; intros n Ek d s Hn Ld.
  - assert (n = length all) by lia. subst n. rewrite skipn_all. exists d, s. split; [exact Ld|]. rewrite firstn_all2 by lia. reflexivity.
  - destruct (nth_error all n) as [file|] eqn:Ef; [|apply nth_error_None in Ef; lia]. destruct (nth_error xs n) as [x|] eqn:Ex; [|apply nth_error_None in Ex; lia].
    destruct (H n file x Ef Ex) as [Hs Hd]. assert (Es : skipn n all = file :: skipn (S n) all).
    { clear - Ef. revert n Ef. induction all as [|a l IH]; intros n Ef; [destruct n; discriminate|]. destruct n as [|n]; [injection Ef as ->; reflexivity|]. cbn [skipn]. apply IH. exact Ef. }
    assert (Ep : firstn (S n) xs = firstn n xs ++ [x]).
    { clear - Ex. revert n Ex. induction xs as [|a l IH]; intros n Ex; [destruct n; discriminate|]. destruct n as [|n]; [injection Ex as ->; reflexivity|]. cbn [firstn app]. f_equal. apply IH. exact Ex. }
    rewrite Es. cbn [map app kfx_load_files]. unfold kfx_load_image. rewrite Hs. destruct x as [infos revs]. rewrite (next_ch_set heads c n f d s Hh ltac:(lia) Ld). cbn [fst snd] in Hd.
    destruct Ld as [W Fr G La Ch]. destruct (flux_add_ok (dec (firstn n xs) infos) d s (ch_at heads n) revs (tracks n) W Fr (ch_at_head heads n Hh) Hd) as (d1 & E1 & W1 & F1 & G1). unfold flux_add in E1.
    destruct (add_track_fluxstream _ _ _) as [d2 r]. destruct r as [u| |]; cbn [obind] in E1; try discriminate. injection E1 as ->. cbn [obind].
    rewrite <- Ep. apply (IH (S n) ltac:(lia) d1 (append_to s (ch_h (ch_at heads n)) (flux_track (ch_at heads n) (tracks n)))); [lia|].
    constructor; [exact W1|exact F1|rewrite G1; exact G| |].
    + rewrite <- Hf. apply laid_snoc; assumption.
    + intros i Hi. rewrite Hf. apply flux_track_ch.
Qed.
