(* KfxSet_props.v - C67: KryoFlux sets. *)
From Verif Require Import Base Base_lemmas Chs_model BitRing_model Mfm_model Types_model System34_model MetaSector_model BitStream_model DiskImage_model DiskImage_spec DiskImage_proofs Raw_model F86_model Hxc_model Flux_model Flux_spec Flux_proofs Pll_model Pfi2_proofs Pfi3_proofs Kfx_model Kfx_spec KfxSet_spec KfxSet_proofs.
From Coq Require Import Lia.
Import ListNotations.
Local Open Scope nat_scope.

(* The names looked for: the prefix in lower case, the cylinder with at least two digits, the head. *)
Lemma dec_app a b : dec_value (a ++ [b]) = (10 * dec_value a + (b - 48))%N.
Proof. unfold dec_value. rewrite fold_left_app. reflexivity. Qed.
Lemma digits2_value c : (c < 65536)%N -> dec_value (digits2 c) = c.
Proof.
  intros H. unfold digits2.
  assert (V : forall a b d e f : N, (dec_value [48 + a; 48 + b; 48 + d; 48 + e; 48 + f] = 10000 * a + 1000 * b + 100 * d + 10 * e + f /\ dec_value [48 + b; 48 + d; 48 + e; 48 + f] = 1000 * b + 100 * d + 10 * e + f /\ dec_value [48 + d; 48 + e; 48 + f] = 100 * d + 10 * e + f /\ dec_value [48 + e; 48 + f] = 10 * e + f)%N).
  { intros. unfold dec_value. cbn [fold_left]. lia. }
  specialize (V (c / 10000 mod 10) (c / 1000 mod 10) (c / 100 mod 10) (c / 10 mod 10) (c mod 10))%N. destruct V as (V1 & V2 & V3 & V4).
  destruct (N.leb_spec 10000 c) as [A|A], (N.leb_spec 1000 c) as [B|B], (N.leb_spec 100 c) as [D|D]; try lia; cbn [app]; rewrite ?V1, ?V2, ?V3, ?V4; clear V1 V2 V3 V4; dlia.
Qed.
Theorem C67_names : forall base c h, (c < 65536)%N -> exists ds, test_name base c h = map lower base ++ ds ++ [46; 48 + h; 46; 114; 97; 119]%N /\
  Forall (fun d => is_digit d = true) ds /\ dec_value ds = c /\ 2 <= length ds /\ (2 < length ds -> hd 0%N ds <> 48%N).
Proof.
  intros base c h H. exists (digits2 c). split; [reflexivity|].
  assert (Dg : forall x, is_digit (48 + x mod 10)%N = true) by (intros x; unfold is_digit; pose proof (N.mod_upper_bound x 10 ltac:(discriminate)); lia).
  assert (If : forall (b : bool) x, is_digit x = true -> Forall (fun d => is_digit d = true) (if b then [x] else [])) by (intros [|] x Hx; [constructor; [exact Hx|constructor]|constructor]).
  split; [unfold digits2; apply Forall_app; split; [apply If, Dg|apply Forall_app; split; [apply If, Dg|apply Forall_app; split; [apply If, Dg|constructor; [apply Dg|constructor; [apply Dg|constructor]]]]]|].
  split; [apply digits2_value; exact H|]. unfold digits2. rewrite !app_length. cbn [length]. split; [lia|].
  destruct (N.leb_spec 10000 c) as [A|A], (N.leb_spec 1000 c) as [B|B], (N.leb_spec 100 c) as [D|D]; try lia; cbn [app hd length]; intros L; try (exfalso; clear - L; lia); clear L; dlia.
Qed.
(* A file name belongs to a set if it has the form of a stream's; the prefix is the longest possible. *)
Lemma raw_here_iff l : raw_here l = true <-> exists rest, stream_name l [] rest.
Proof.
  split.
  - intros H. destruct l as [|a [|b [|p [|c [|q [|r [|s [|t rest]]]]]]]]; try discriminate. cbn [raw_here] in H. do 7 (apply andb_prop in H; destruct H as [H ?]).
    exists rest, a, b, c. repeat match goal with X : (_ =? _)%N = true |- _ => apply N.eqb_eq in X; subst end. auto.
  - intros (rest & a & b & h & A & B & C & ->). cbn [app raw_here]. rewrite A, B, C. reflexivity.
Qed.
Lemma stream_name_cons x l p rest : stream_name (x :: l) (x :: p) rest <-> stream_name l p rest.
Proof. split; intros (a & b & h & A & B & C & E); exists a, b, h; (split; [exact A|split; [exact B|split; [exact C|]]]); [injection E as E; exact E|rewrite E; reflexivity]. Qed.
Lemma base_none l : kfx_base l = None -> forall p rest, ~ stream_name l p rest.
Proof.
  induction l as [|x l IH]; intros E p rest S0; [destruct S0 as (a & b & h & _ & _ & _ & Q); destruct p; discriminate|]. cbn [kfx_base] in E. destruct (kfx_base l) as [q|]; [discriminate|].
  destruct (raw_here (x :: l)) eqn:R; [discriminate|]. destruct p as [|y p].
  - assert (X : raw_here (x :: l) = true) by (apply raw_here_iff; exists rest; exact S0). rewrite R in X. discriminate.
  - assert (x = y) by (destruct S0 as (a & b & h & _ & _ & _ & Q); injection Q; auto). subst y. apply (proj1 (stream_name_cons _ _ _ _)) in S0. exact (IH eq_refl _ _ S0).
Qed.
Theorem C67_base : forall name p, kfx_base name = Some p <-> (exists rest, stream_name name p rest) /\ forall p' rest', stream_name name p' rest' -> length p' <= length p.
Proof.
  induction name as [|x l IH]; intros p.
  - split; [discriminate|]. intros [(rest & a & b & h & _ & _ & _ & Q) _]. destruct p; discriminate.
  - cbn [kfx_base]. destruct (kfx_base l) as [q|] eqn:Eq.
    + destruct (proj1 (IH q) eq_refl) as [(rest & R) M]. split.
      * intros E. injection E as <-. split; [exists rest; apply (proj2 (stream_name_cons _ _ _ _)); exact R|]. intros p' rest' R'. destruct p' as [|y p']; [cbn [length]; lia|].
        assert (x = y) by (destruct R' as (a & b & h & _ & _ & _ & Q); injection Q; auto). subst y. apply (proj1 (stream_name_cons _ _ _ _)) in R'. cbn [length]. pose proof (M _ _ R'). lia.
      * intros [(rest' & R') M']. pose proof (M' (x :: q) rest (proj2 (stream_name_cons x l q rest) R)) as G. destruct p as [|y p]; [cbn [length] in G; lia|].
        assert (x = y) by (destruct R' as (a & b & h & _ & _ & _ & Q); injection Q; auto). subst y. apply (proj1 (stream_name_cons _ _ _ _)) in R'. f_equal. f_equal.
        assert (X : Some q = Some p) by (apply (IH p); split; [exists rest'; exact R'|]; intros p2 r2 R2; pose proof (M' (x :: p2) r2 (proj2 (stream_name_cons x l p2 r2) R2)); cbn [length] in *; lia). injection X as <-. reflexivity.
    + pose proof (base_none l Eq) as No. destruct (raw_here (x :: l)) eqn:R.
      * split.
        -- intros E. injection E as <-. split; [apply raw_here_iff; exact R|]. intros p' rest' R'. destruct p' as [|y p']; [apply le_n|]. exfalso. assert (x = y) by (destruct R' as (a & b & h & _ & _ & _ & Q); injection Q; auto). subst y. apply (proj1 (stream_name_cons _ _ _ _)) in R'. exact (No _ _ R').
        -- intros [(rest' & R') _]. destruct p as [|y p]; [reflexivity|]. exfalso. assert (x = y) by (destruct R' as (a & b & h & _ & _ & _ & Q); injection Q; auto). subst y. apply (proj1 (stream_name_cons _ _ _ _)) in R'. exact (No _ _ R').
      * split; [discriminate|]. intros [(rest' & R') _]. destruct p as [|y p].
        -- assert (X : raw_here (x :: l) = true) by (apply raw_here_iff; exists rest'; exact R'). rewrite R in X. discriminate.
        -- exfalso. assert (x = y) by (destruct R' as (a & b & h & _ & _ & _ & Q); injection Q; auto). subst y. apply (proj1 (stream_name_cons _ _ _ _)) in R'. exact (No _ _ R').
Qed.

(* The set: the files present of all cylinders up to the first one from 80 on without a file for head 0, cylinder by cylinder and head by
   head; its geometry: the number of cylinders and of heads with a file. *)
Lemma expand_eq path listing base C : kfx_base (snd path) = Some base -> (79 < N.of_nat C)%N -> (N.of_nat C < 65535)%N -> has listing base (N.of_nat C) 0 = false ->
  (forall c, (79 < N.of_nat c)%N -> c < C -> has listing base (N.of_nat c) 0 = true) ->
  kfx_expand path listing = Ok (map (fun x => (fst path, test_name base (fst x) (snd x))) (filter (fun x => has listing base (fst x) (snd x)) (both C)),
                                mkCh (N.of_nat (length (cyls_with listing base C))) (b2N (head_in listing base C 0) + b2N (head_in listing base C 1))).
Proof.
  intros Eb H80 Hm Hno Hyes. unfold kfx_expand. rewrite Eb. assert (HF : N.of_nat (N.to_nat 131073) = 131073%N) by apply N2Nat.id. generalize dependent (N.to_nat 131073). intros fuel HF.
  pose proof (search_run (fst path) base listing C H80 Hm Hno Hyes C 0 fuel (mkKS [] [] []) (Nat.add_0_l C) ltac:(lia)) as R. change (N.of_nat 0) with 0%N in R. rewrite R. cbn [obind].
  destruct (gathered_all (fst path) base listing C) as [F Cy _ _ L]. rewrite F, Cy, L.
  assert (Lc : (N.of_nat (length (cyls_with listing base C)) <= N.of_nat C)%N).
  { unfold cyls_with. rewrite <- (seq_length C 0) at 2. rewrite <- (map_length N.of_nat (seq 0 C)). generalize (map N.of_nat (seq 0 C)). intros l. clear. enough (length (filter (fun c => has listing base c 0 || has listing base c 1) l) <= length l) by lia. induction l as [|x l IH]; [apply le_n|]. cbn [filter length]. destruct (_ || _); cbn [length]; lia. }
  f_equal. f_equal. f_equal; [unfold as_u16; apply N.mod_small; lia|]. unfold as_u8. destruct (head_in listing base C 0), (head_in listing base C 1); reflexivity.
Qed.
Theorem C67_expand : forall path listing base C, kfx_base (snd path) = Some base -> (79 < N.of_nat C < 65535)%N -> ~ present listing base (N.of_nat C) 0 ->
  (forall c, (79 < N.of_nat c)%N -> c < C -> present listing base (N.of_nat c) 0) ->
  exists members cyls heads, kfx_expand path listing = Ok (map (fun x => (fst path, test_name base (fst x) (snd x))) members, mkCh (N.of_nat (length cyls)) (N.of_nat (length heads))) /\
    (exists keep, members = filter keep (sides C) /\ forall c h, (h < 2)%N -> keep (c, h) = true <-> present listing base c h) /\
    NoDup cyls /\ (forall c, In c cyls <-> (c < N.of_nat C)%N /\ exists h, (h < 2)%N /\ present listing base c h) /\
    NoDup heads /\ (forall h, In h heads <-> (h < 2)%N /\ exists c, (c < N.of_nat C)%N /\ present listing base c h).
Proof.
  intros path listing base C Eb HC Hno Hyes. assert (No : has listing base (N.of_nat C) 0 = false) by (destruct (has listing base (N.of_nat C) 0) eqn:E; [exfalso; apply Hno; apply has_iff; exact E|reflexivity]).
  rewrite (expand_eq path listing base C Eb (proj1 HC) (proj2 HC) No (fun c A B => proj2 (has_iff _ _ _ _) (Hyes c A B))).
  assert (InC : forall c, In c (map N.of_nat (seq 0 C)) <-> (c < N.of_nat C)%N).
  { intros c. rewrite in_map_iff. split; [intros (x & <- & Hx); apply in_seq in Hx; lia|]. intros Hc. exists (N.to_nat c). split; [apply N2Nat.id|]. apply in_seq. lia. }
  assert (Hd : forall h, head_in listing base C h = true <-> exists c, (c < N.of_nat C)%N /\ present listing base c h).
  { intros h. unfold head_in. rewrite existsb_exists. split; intros (c & A & B); exists c; (split; [apply InC; exact A|apply has_iff; exact B]). }
  exists (filter (fun x => has listing base (fst x) (snd x)) (both C)), (cyls_with listing base C), ((if head_in listing base C 0 then [0%N] else []) ++ (if head_in listing base C 1 then [1%N] else [])).
  split; [f_equal; f_equal; f_equal; destruct (head_in listing base C 0), (head_in listing base C 1); reflexivity|].
  split; [exists (fun x => has listing base (fst x) (snd x)); split; [reflexivity|]; intros c h _; apply has_iff|].
  split; [unfold cyls_with; apply NoDup_filter; apply FinFun.Injective_map_NoDup; [intros a b; apply Nat2N.inj|apply seq_NoDup]|].
  split; [intros c; unfold cyls_with; rewrite filter_In, InC, orb_true_iff, !has_iff; split; [intros [A [B|B]]; split; try exact A; [exists 0%N|exists 1%N]; (split; [reflexivity|exact B])|intros [A (h & Hh & B)]; split; [exact A|]; assert (h = 0 \/ h = 1)%N as [-> | ->] by lia; auto]|].
  split; [destruct (head_in listing base C 0), (head_in listing base C 1); repeat constructor; cbn; intuition discriminate|].
  intros h. rewrite in_app_iff. split.
  - intros [X|X]; [destruct (head_in listing base C 0) eqn:E; [|contradiction]|destruct (head_in listing base C 1) eqn:E; [|contradiction]]; destruct X as [<-|[]]; (split; [reflexivity|apply Hd; exact E]).
  - intros [Hh X]. apply Hd in X. assert (h = 0 \/ h = 1)%N as [-> | ->] by lia; rewrite X; [left|right]; left; reflexivity.
Qed.
(* With fewer than 65455 files in the directory the search ends. *)
Lemma test_name_inj base c c' h : (c < 65536)%N -> (c' < 65536)%N -> test_name base c h = test_name base c' h -> c = c'.
Proof.
  intros A B E. unfold test_name in E. apply app_inv_head in E. apply (f_equal (@rev N)) in E. rewrite !rev_app_distr in E. apply app_inv_head in E. apply (f_equal (@rev N)) in E. rewrite !rev_involutive in E.
  rewrite <- (digits2_value c A), <- (digits2_value c' B), E. reflexivity.
Qed.
Lemma many_files listing base : forall n, (80 + N.of_nat n <= 65536)%N -> (forall c, c < n -> has listing base (80 + N.of_nat c) 0 = true) -> n <= length listing.
Proof.
  intros n Hn H. rewrite <- (seq_length n 0). rewrite <- (map_length (fun c => test_name base (80 + N.of_nat c) 0) (seq 0 n)). rewrite <- (map_length (fun f : Path => map lower (snd f)) listing). apply NoDup_incl_length.
  - assert (G : forall l, NoDup l -> (forall x, In x l -> x < n) -> NoDup (map (fun c => test_name base (80 + N.of_nat c) 0) l)).
    { induction 1 as [|x l Hx Nd IH]; intros B; [constructor|]. cbn [map]. constructor; [|apply IH; intros y Hy; apply B; right; exact Hy].
      intros X. apply in_map_iff in X. destruct X as (y & E & Hy). pose proof (B x (or_introl eq_refl)). pose proof (B y (or_intror Hy)). apply test_name_inj in E; [|lia|lia]. assert (x = y) by lia. subst y. contradiction. }
    apply G; [apply seq_NoDup|]. intros x Hx. apply in_seq in Hx. lia.
  - intros x Hx. apply in_map_iff in Hx. destruct Hx as (c & <- & Hc). apply in_seq in Hc. pose proof (H c ltac:(lia)) as P. apply has_iff in P. destruct P as (f & A & B). apply in_map_iff. exists f. split; [exact B|exact A].
Qed.
Lemma first_gap (p : nat -> bool) : forall n, (exists k, k < n /\ p k = false /\ forall j, j < k -> p j = true) \/ (forall j, j < n -> p j = true).
Proof.
  induction n as [|n [IH|IH]]; [right; intros; lia|left; destruct IH as (k & A & B); exists k; split; [lia|exact B]|].
  destruct (p n) eqn:E; [right; intros j Hj; destruct (Nat.eq_dec j n) as [->|]; [exact E|apply IH; lia]|left; exists n; split; [lia|split; [exact E|exact IH]]].
Qed.
Theorem C67_total : forall path listing, (N.of_nat (length listing) < 65455)%N -> exists files geom, kfx_expand path listing = Ok (files, geom).
Proof.
  intros path listing Hl. destruct (kfx_base (snd path)) as [base|] eqn:Eb; [|exists [], (mkCh 0 0); unfold kfx_expand; rewrite Eb; reflexivity].
  destruct (first_gap (fun k => has listing base (80 + N.of_nat k) 0) (S (length listing))) as [(k & Hk & Hf & Ht)|All].
  - assert (E80 : N.of_nat (80 + k) = (80 + N.of_nat k)%N) by lia. rewrite (expand_eq path listing base (80 + k) Eb); [do 2 eexists; reflexivity|lia|lia|rewrite E80; exact Hf|].
    intros c A B. replace (N.of_nat c) with (80 + N.of_nat (c - 80))%N by lia. apply Ht. lia.
  - exfalso. pose proof (many_files listing base (S (length listing)) ltac:(lia) All). lia.
Qed.

(* Loading: the files are loaded in order, each onto the next track, up to the first that is no valid stream. *)
Theorem C67_load_files : forall dec heads cyls files xs tracks bad, heads = 1 \/ heads = 2 -> length files <= cyls * heads -> length xs = length files ->
  (forall i file x, nth_error files i = Some file -> nth_error xs i = Some x -> kfx_stream file = Ok x /\ dec (firstn i xs) (fst x) (ch_at heads i) (synthesize (snd x)) = Ok (tracks i)) ->
  bad = [] \/ (exists file e more, bad = Some file :: more /\ kfx_stream file = Err e) ->
  exists d' s', kfx_load_files dec [] (with_geom di_default (mkCh (N.of_nat cyls) (N.of_nat heads))) (map Some files ++ bad) = Ok d' /\ maps_valid d' /\ shows d' s' /\
    laid heads (length files) (fun i => flux_track (ch_at heads i) (tracks i)) s'.
Proof.
  intros dec heads cyls files xs tracks bad Hh Hc Hl H Hb.
  destruct (files_load dec heads cyls (fun i => flux_track (ch_at heads i) (tracks i)) tracks files xs Hh Hc Hl (fun _ => eq_refl) H bad 0 (with_geom di_default (mkCh (N.of_nat cyls) (N.of_nat heads))) ([], []) ltac:(lia)) as (d' & s' & Ld & E).
  { constructor; [apply empty_wf; reflexivity|split; [reflexivity|left; reflexivity]|reflexivity|apply laid_nil; exact Hh|intros i Hi; lia]. }
  cbn [firstn skipn] in E. rewrite E. exists d', s'. destruct Ld as [W _ _ La _]. split.
  - destruct Hb as [-> | (file & e & more & -> & Ef)]; [reflexivity|]. cbn [kfx_load_files]. unfold kfx_load_image. rewrite Ef. reflexivity.
  - split; [exact (proj1 W)|]. split; [apply wf_shows; exact W|exact La].
Qed.
(* A file of the set that does not exist fails the load. *)
Theorem C67_unreadable : forall dec heads cyls files xs tracks more, heads = 1 \/ heads = 2 -> length files <= cyls * heads -> length xs = length files ->
  (forall i file x, nth_error files i = Some file -> nth_error xs i = Some x -> kfx_stream file = Ok x /\ dec (firstn i xs) (fst x) (ch_at heads i) (synthesize (snd x)) = Ok (tracks i)) ->
  kfx_load_files dec [] (with_geom di_default (mkCh (N.of_nat cyls) (N.of_nat heads))) (map Some files ++ None :: more) = Err IoError.
Proof.
  intros dec heads cyls files xs tracks more Hh Hc Hl H.
  destruct (files_load dec heads cyls (fun i => flux_track (ch_at heads i) (tracks i)) tracks files xs Hh Hc Hl (fun _ => eq_refl) H (None :: more) 0 (with_geom di_default (mkCh (N.of_nat cyls) (N.of_nat heads))) ([], []) ltac:(lia)) as (d' & s' & Ld & E).
  { constructor; [apply empty_wf; reflexivity|split; [reflexivity|left; reflexivity]|reflexivity|apply laid_nil; exact Hh|intros i Hi; lia]. }
  cbn [firstn skipn] in E. rewrite E. reflexivity.
Qed.

(* A complete set (a stream for every cylinder below `cyls` and every head below `heads`, and no other) loads as the disk with these tracks,
   each at the cylinder and head its file is named after. *)
Definition complete (listing : list Path) (base : list N) (cyls heads : nat) : Prop :=
  forall c h, (c <= 65535)%N -> (h < 2)%N -> (present listing base c h <-> (c < N.of_nat cyls)%N /\ (h < N.of_nat heads)%N).
Lemma members_of listing base cyls heads : heads = 1 \/ heads = 2 -> complete listing base cyls heads -> forall C, cyls <= C -> (N.of_nat C < 65535)%N ->
  filter (fun x => has listing base (fst x) (snd x)) (both C) = map (fun i => (N.of_nat (i / heads), N.of_nat (i mod heads))) (seq 0 (cyls * heads)) /\
  length (cyls_with listing base C) = cyls /\ (0 < cyls -> head_in listing base C 0 = true /\ head_in listing base C 1 = (heads =? 2)).
Proof.
  intros Hh Hcm C. assert (Has : forall c h, c <= C -> (N.of_nat C < 65535)%N -> (h = 0 \/ h = 1)%N -> has listing base (N.of_nat c) h = (c <? cyls) && (h <? N.of_nat heads)%N).
  { intros c h A B Hh2. apply eq_iff_eq_true. rewrite has_iff, andb_true_iff, Nat.ltb_lt, N.ltb_lt. pose proof (Hcm (N.of_nat c) h ltac:(lia) ltac:(lia)) as Q. unfold present in Q. rewrite Q. lia. }
  intros Hc Hm. split; [|split].
  - (* induction over the cylinders *)
    assert (G : forall n, n <= C -> filter (fun x => has listing base (fst x) (snd x)) (both n) = map (fun i => (N.of_nat (i / heads), N.of_nat (i mod heads))) (seq 0 (Nat.min n cyls * heads))).
    { induction n as [|n IH]; intros Hn; [reflexivity|]. unfold both. rewrite seq_S, flat_map_app. fold (both n). cbn [Nat.add flat_map]. rewrite app_nil_r, filter_app, IH by lia. cbn [filter fst snd].
      rewrite !Has by (try assumption; try lia; auto). destruct (Nat.ltb_spec n cyls) as [L|L].
      - replace (Nat.min (S n) cyls) with (S n) by lia. replace (Nat.min n cyls) with n by lia. cbn [andb]. destruct Hh as [-> | ->].
        + change (0 <? N.of_nat 1)%N with true. change (1 <? N.of_nat 1)%N with false. cbn iota. rewrite !Nat.mul_1_r, seq_S, map_app. cbn [Nat.add map]. rewrite Nat.div_1_r, Nat.mod_1_r. reflexivity.
        + change (0 <? N.of_nat 2)%N with true. change (1 <? N.of_nat 2)%N with true. cbn iota. replace (S n * 2) with (S (S (n * 2))) by lia. rewrite !seq_S, !map_app. cbn [Nat.add map]. rewrite <- app_assoc. cbn [app].
          assert (E1 : n * 2 / 2 = n) by (apply Nat.div_mul; discriminate). assert (E2 : n * 2 mod 2 = 0) by (apply Nat.mod_mul; discriminate).
          assert (E3 : S (n * 2) / 2 = n) by (symmetry; apply (Nat.div_unique _ 2 n 1); lia). assert (E4 : S (n * 2) mod 2 = 1) by (symmetry; apply (Nat.mod_unique _ 2 n 1); lia). rewrite E1, E2, E3, E4. reflexivity.
      - replace (Nat.min (S n) cyls) with (Nat.min n cyls) by lia. cbn [andb]. rewrite app_nil_r. reflexivity. }
    rewrite (G C (le_n C)). replace (Nat.min C cyls) with cyls by lia. reflexivity.
  - assert (G : forall n, n <= C -> length (cyls_with listing base n) = Nat.min n cyls).
    { induction n as [|n IH]; intros Hn; [reflexivity|]. unfold cyls_with. rewrite seq_S, map_app, filter_app, app_length. fold (cyls_with listing base n). rewrite IH by lia. cbn [Nat.add map filter].
      rewrite !Has by (try assumption; try lia; auto). destruct (Nat.ltb_spec n cyls) as [L|L]; cbn [andb orb].
      - replace (0 <? N.of_nat heads)%N with true by (symmetry; apply N.ltb_lt; lia). cbn [orb length]. lia.
      - cbn [length]. lia. }
    rewrite (G C (le_n C)). lia.
  - intros H0. assert (In0 : In 0%N (map N.of_nat (seq 0 C))) by (apply in_map_iff; exists 0; split; [reflexivity|apply in_seq; lia]). unfold head_in. split.
    + apply existsb_exists. exists 0%N. split; [exact In0|]. change 0%N with (N.of_nat 0) at 1. rewrite Has by (try assumption; try lia; auto). apply andb_true_iff. rewrite Nat.ltb_lt, N.ltb_lt. lia.
    + destruct Hh as [-> | ->].
      * apply not_true_iff_false. intros X. apply existsb_exists in X. destruct X as (c & Hin & X). apply in_map_iff in Hin. destruct Hin as (k & <- & Hk). apply in_seq in Hk. rewrite Has in X by (try assumption; try lia; auto). apply andb_true_iff in X. destruct X as [_ X]. discriminate X.
      * apply existsb_exists. exists 0%N. split; [exact In0|]. change 0%N with (N.of_nat 0) at 1. rewrite Has by (try assumption; try lia; auto). apply andb_true_iff. rewrite Nat.ltb_lt, N.ltb_lt. lia.
Qed.
Theorem C67_complete_set : forall dec read listing dir name base cyls heads xs tracks, kfx_base name = Some base -> heads = 1 \/ heads = 2 -> 0 < cyls -> (N.of_nat cyls < 65535)%N -> complete listing base cyls heads ->
  length xs = cyls * heads ->
  (forall i x, nth_error xs i = Some x -> exists file, read (dir, test_name base (N.of_nat (i / heads)) (N.of_nat (i mod heads))) = Some file /\ kfx_stream file = Ok x /\
     dec (firstn i xs) (fst x) (ch_at heads i) (synthesize (snd x)) = Ok (tracks i)) ->
  exists d' s', kfx_load_set dec read listing (dir, name) = Ok d' /\ maps_valid d' /\ shows d' s' /\ length (fst s') = cyls /\ length (snd s') = (if heads =? 2 then cyls else 0) /\
    forall c h, c < cyls -> h < heads -> di_track d' (mkCh (N.of_nat c) (N.of_nat h)) = Ok (Some (flux_track (mkCh (N.of_nat c) (N.of_nat h)) (tracks (c * heads + h)))).
Proof.
  intros dec read listing dir name base cyls heads xs tracks Eb Hh H0 Hm Hcm Hl H. set (C := Nat.max 80 cyls).
  destruct (members_of listing base cyls heads Hh Hcm C ltac:(lia) ltac:(lia)) as (M1 & M2 & M3). destruct (M3 H0) as [M4 M5].
  unfold kfx_load_set. rewrite (expand_eq (dir, name) listing base C Eb); [|lia|lia| |].
  2:{ apply not_true_iff_false. intros X. apply has_iff in X. apply (Hcm (N.of_nat C) 0%N ltac:(lia) ltac:(reflexivity)) in X. lia. }
  2:{ intros c A B. apply has_iff. apply (Hcm (N.of_nat c) 0%N ltac:(lia) ltac:(reflexivity)). lia. }
  cbn [obind]. rewrite M1, M2, M4, M5. cbn [fst].
  replace (b2N true + b2N (Nat.eqb heads 2))%N with (N.of_nat heads) by (destruct Hh as [-> | ->]; reflexivity).
  assert (Fl : exists files, map read (map (fun x : N * N => (dir, test_name base (fst x) (snd x))) (map (fun i => (N.of_nat (i / heads), N.of_nat (i mod heads))) (seq 0 (cyls * heads)))) = map Some files /\ length files = cyls * heads /\
      forall i file x, nth_error files i = Some file -> nth_error xs i = Some x -> kfx_stream file = Ok x /\ dec (firstn i xs) (fst x) (ch_at heads i) (synthesize (snd x)) = Ok (tracks i)).
  { assert (G : forall n, n <= cyls * heads -> exists files, map (fun i => read (dir, test_name base (N.of_nat (i / heads)) (N.of_nat (i mod heads)))) (seq 0 n) = map Some files /\ length files = n /\
        forall i file x, nth_error files i = Some file -> nth_error xs i = Some x -> kfx_stream file = Ok x /\ dec (firstn i xs) (fst x) (ch_at heads i) (synthesize (snd x)) = Ok (tracks i)).
    { induction n as [|n IH]; intros Hn; [exists []; split; [reflexivity|split; [reflexivity|intros i file x Ef; destruct i; discriminate]]|].
      destruct (IH ltac:(lia)) as (files & A & B & D). destruct (nth_error xs n) as [x|] eqn:Ex; [|apply nth_error_None in Ex; lia]. destruct (H n x Ex) as (file & R1 & R2 & R3).
      exists (files ++ [file]). rewrite seq_S, !map_app, A. cbn [Nat.add map]. rewrite R1. split; [reflexivity|]. split; [rewrite app_length; cbn [length]; lia|].
      intros i file' x' Ef Ex'. destruct (Nat.lt_ge_cases i n) as [L|L].
      - rewrite nth_error_app1 in Ef by lia. exact (D i file' x' Ef Ex').
      - assert (i = n) by (assert (i < length (files ++ [file])) by (apply nth_error_Some; congruence); rewrite app_length in *; cbn [length] in *; lia). subst i.
        rewrite nth_error_app2 in Ef by lia. replace (n - length files) with 0 in Ef by lia. injection Ef as <-. rewrite Ex in Ex'. injection Ex' as <-. split; assumption. }
    destruct (G _ (le_n _)) as (files & A & B & D). exists files. split; [|split; [exact B|exact D]]. refine (eq_trans _ A). refine (eq_trans (map_map _ _ _) _). refine (eq_trans (map_map _ _ _) _). reflexivity. }
  destruct Fl as (files & EqF & Lf & Hf).
  destruct (C67_load_files dec heads cyls files xs tracks [] Hh ltac:(lia) ltac:(lia) Hf (or_introl eq_refl)) as (d' & s' & E & V & Sh & L0 & L1 & LF).
  rewrite app_nil_r in E. exists d', s'. split; [exact (eq_trans (f_equal (kfx_load_files dec [] (with_geom di_default (mkCh (N.of_nat cyls) (N.of_nat heads)))) EqF) E)|]. split; [exact V|]. split; [exact Sh|]. rewrite Lf in L0, L1, LF.
  split; [rewrite L0; destruct Hh as [-> | ->]; [rewrite Nat.div_1_r; lia|symmetry; apply (Nat.div_unique _ 2 cyls 1); lia]|].
  split; [rewrite L1; destruct Hh as [-> | ->]; [reflexivity|cbn [Nat.eqb]; apply Nat.div_mul; discriminate]|].
  intros c h Hc Hh2. rewrite Sh by (destruct Hh as [-> | ->]; lia). f_equal. rewrite Nat2N.id.
  assert (Hlt : c * heads + h < cyls * heads) by (destruct Hh as [-> | ->]; lia). pose proof (LF _ Hlt) as Q.
  assert (E1 : (c * heads + h) / heads = c) by (symmetry; apply (Nat.div_unique _ heads c h); lia). assert (E2 : (c * heads + h) mod heads = h) by (symmetry; apply (Nat.mod_unique _ heads c h); lia).
  unfold ch_at in Q. rewrite E1, E2 in Q. exact Q.
Qed.

(* Concrete cases.  A directory with two streams of head 0, named t00.0.raw and t01.0.raw, is a complete set of 2 cylinders and 1 head. *)
Definition name_of (c : N) : list N := [116; 48; 48 + c; 46; 48; 46; 114; 97; 119]%N.
Example base_ok : kfx_base (name_of 0) = Some [116%N] /\ kfx_base (name_of 1) = Some [116%N] /\ kfx_base [116; 46; 114; 97; 119]%N = None.
Proof. repeat split. Qed.
Definition two_names : list Path := [([], name_of 1); ([], name_of 0); ([], [97; 98]%N)].
Example two_complete : complete two_names [116%N] 2 1.
Proof.
  intros c h Hc Hh. assert (E : forall k j, (k < 65536)%N -> (j < 10)%N -> name_of j = test_name [116%N] k 0 -> k = j).
  { intros k j Hk Hj E. apply (test_name_inj [116%N] k j 0 Hk); [lia|]. rewrite <- E. unfold name_of, test_name, digits2.
    replace (10000 <=? j)%N with false by (symmetry; apply N.leb_gt; lia). replace (1000 <=? j)%N with false by (symmetry; apply N.leb_gt; lia). replace (100 <=? j)%N with false by (symmetry; apply N.leb_gt; lia).
    rewrite (N.div_small j 10), (N.mod_small j 10) by lia. reflexivity. }
  split.
  - intros (f & [<-|[<-|[<-|[]]]] & Hf); cbn [snd] in Hf.
    + assert (h = 0)%N as -> by (assert (h = 0 \/ h = 1)%N as [-> | ->] by lia; [reflexivity|exfalso; apply (f_equal (@rev N)) in Hf; unfold test_name in Hf; rewrite !rev_app_distr in Hf; discriminate Hf]).
      change (map lower (name_of 1)) with (name_of 1) in Hf. rewrite (E c 1%N ltac:(lia) ltac:(lia) Hf). split; reflexivity.
    + assert (h = 0)%N as -> by (assert (h = 0 \/ h = 1)%N as [-> | ->] by lia; [reflexivity|exfalso; apply (f_equal (@rev N)) in Hf; unfold test_name in Hf; rewrite !rev_app_distr in Hf; discriminate Hf]).
      change (map lower (name_of 0)) with (name_of 0) in Hf. rewrite (E c 0%N ltac:(lia) ltac:(lia) Hf). split; reflexivity.
    + exfalso. apply (f_equal (@rev N)) in Hf. unfold test_name in Hf. rewrite !rev_app_distr in Hf. discriminate Hf.
  - intros [A B]. assert (h = 0)%N as -> by (change (N.of_nat 1) with 1%N in B; lia). assert (c = 0 \/ c = 1)%N as [-> | ->] by (change (N.of_nat 2) with 2%N in A; lia).
    + exists ([], name_of 0). split; [right; left; reflexivity|reflexivity].
    + exists ([], name_of 1). split; [left; reflexivity|reflexivity].
Qed.

(* "A set loads whatever the case of the letters of its names" is false: where names are case-sensitive, a set whose prefix has a capital
   letter is found (the names of the directory are compared in lower case) but cannot be opened (the names to open are in lower case too). *)
Theorem C67_case_refuted : forall dec read listing dir name base cyls heads, kfx_base name = Some base -> heads = 1 \/ heads = 2 -> 0 < cyls -> (N.of_nat cyls < 65535)%N -> complete listing base cyls heads ->
  (forall f, read f <> None -> exists rest, snd f = base ++ rest) -> map lower base <> base -> kfx_load_set dec read listing (dir, name) = Err IoError.
Proof.
  intros dec read listing dir name base cyls heads Eb Hh H0 Hm Hcm Hread Hcase. set (C := Nat.max 80 cyls).
  destruct (members_of listing base cyls heads Hh Hcm C ltac:(lia) ltac:(lia)) as (M1 & M2 & M3).
  unfold kfx_load_set. rewrite (expand_eq (dir, name) listing base C Eb); [|lia|lia| |].
  2:{ apply not_true_iff_false. intros X. apply has_iff in X. apply (Hcm (N.of_nat C) 0%N ltac:(lia) ltac:(reflexivity)) in X. lia. }
  2:{ intros c A B. apply has_iff. apply (Hcm (N.of_nat c) 0%N ltac:(lia) ltac:(reflexivity)). lia. }
  cbn [obind]. rewrite M1. cbn [fst]. destruct (cyls * heads) as [|n] eqn:En; [destruct Hh as [-> | ->]; lia|]. cbn [seq map].
  destruct (read (dir, test_name base (N.of_nat (0 / heads)) (N.of_nat (0 mod heads)))) as [file|] eqn:Er; cbn [fst snd]; rewrite Er; [|reflexivity].
  exfalso. destruct (Hread _ ltac:(rewrite Er; discriminate)) as (rest & E). cbn [snd] in E. unfold test_name in E. apply Hcase.
  apply (f_equal (firstn (length base))) in E. rewrite !firstn_app, map_length, Nat.sub_diag, !firstn_O, !app_nil_r in E. rewrite firstn_all2 in E by (rewrite map_length; apply le_n). rewrite firstn_all in E. exact E.
Qed.
(* Nor does each file of an incomplete set come to the cylinder it is named after: with cylinders 0 and 2 of head 0 only, the stream of
   cylinder 2 becomes the track of cylinder 1. *)
Definition gap_names : list Path := [([], name_of 0); ([], name_of 2)].
Theorem C67_missing_refuted : forall dec read f0 f2 x0 x2 t0 t2,
  read ([], name_of 0) = Some f0 -> read ([], name_of 2) = Some f2 -> kfx_stream f0 = Ok x0 -> kfx_stream f2 = Ok x2 ->
  dec [] (fst x0) (mkCh 0 0) (synthesize (snd x0)) = Ok t0 -> dec [x0] (fst x2) (mkCh 1 0) (synthesize (snd x2)) = Ok t2 ->
  exists d', kfx_load_set dec read gap_names ([], name_of 0) = Ok d' /\ di_track d' (mkCh 1 0) = Ok (Some (flux_track (mkCh 1 0) t2)) /\ di_track d' (mkCh 2 0) = Ok None.
Proof.
  intros dec read f0 f2 x0 x2 t0 t2 R0 R2 S0 S2 D0 D2. unfold kfx_load_set. rewrite (expand_eq ([], name_of 0) gap_names [116%N] 80 eq_refl); [|reflexivity|reflexivity|reflexivity|intros c A B; lia].
  assert (E1 : filter (fun x => has gap_names [116%N] (fst x) (snd x)) (both 80) = [(0, 0); (2, 0)]%N) by (vm_compute; reflexivity).
  assert (E2 : length (cyls_with gap_names [116%N] 80) = 2) by (vm_compute; reflexivity).
  assert (E3 : head_in gap_names [116%N] 80 0 = true) by (vm_compute; reflexivity). assert (E4 : head_in gap_names [116%N] 80 1 = false) by (vm_compute; reflexivity).
  rewrite E1, E2, E3, E4. cbn [obind map fst snd]. change (test_name [116%N] 0 0) with (name_of 0). change (test_name [116%N] 2 0) with (name_of 2). 
  destruct (C67_load_files dec 1 2 [f0; f2] [x0; x2] (fun i => if i =? 0 then t0 else t2) [] (or_introl eq_refl) ltac:(cbn; lia) eq_refl) as (d' & s' & E & V & Sh & L0 & L1 & LF); [|left; reflexivity|].
  - intros [|[|i]] file x A B; [injection A as <-; injection B as <-; split; assumption|injection A as <-; injection B as <-; split; assumption|destruct i; discriminate].
  - cbn [map app] in E. rewrite <- R0, <- R2 in E. exists d'. split; [exact E|]. pose proof (LF 1 ltac:(cbn; lia)) as Q. cbn [length] in L0, L1. split.
    + rewrite Sh by lia. f_equal. exact Q.
    + rewrite Sh by lia. f_equal. cbn [ch_at] in *. apply nth_error_None. change (length (fst s') <= 2). rewrite L0. lia.
Qed.

Print Assumptions C67_names.
Print Assumptions C67_base.
Print Assumptions C67_expand.
Print Assumptions C67_total.
Print Assumptions C67_load_files.
Print Assumptions C67_unreadable.
Print Assumptions C67_complete_set.
Print Assumptions C67_case_refuted.
Print Assumptions C67_missing_refuted.
