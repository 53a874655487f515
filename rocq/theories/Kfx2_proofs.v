(* Kfx2_proofs.v - the second pass puts every transition into its revolution. *)
From Verif Require Import Base Base_lemmas Chs_model BitRing_model Mfm_model Types_model System34_model MetaSector_model BitStream_model DiskImage_model Raw_model F86_model Hxc_model Flux_model Pll_model Kfx_model Kfx_spec Kfx_proofs.
From Coq Require Import Lia.
Import ListNotations.
Local Open Scope nat_scope.

Definition roll (offsets : list N) (s : KfxRead) : KfxRead :=
  match nth_error offsets (kr_idx s) with
  | Some o => if (o <=? kr_pos s)%N then mkKR (kr_pos s) (S (kr_idx s)) (kr_done s ++ [kr_cur s]) [] (kr_ovl s) (kr_count s) (kr_infos s) else s
  | None => s
  end.
Definition beff (s : KfxRead) (b : block) : outcome KfxRead :=
  match b with
  | BFlux1 x => kfx_push s 1 x
  | BFlux2 hi lo => kfx_push s 2 (hi * 256 + lo)
  | BFlux3 hi lo => kfx_push s 0 (hi * 256 + lo)
  | BOvl16 => Ok (mkKR (kr_pos s) (kr_idx s) (kr_done s) (kr_cur s) (N.min 0xFFFFFFFF (kr_ovl s + 0x10000)) (kr_count s) (kr_infos s))
  | BNop1 => Ok (kfx_at s (kr_pos s + 1))
  | BNop2 _ => Ok (kfx_at s (kr_pos s + 2))
  | BNop3 _ _ => Ok (kfx_at s (kr_pos s + 3))
  | BStreamEnd _ status => if (le status =? 1)%N || (le status =? 2)%N then Err ImageCorruptError else Ok s
  | BKfInfo _ text => Ok (mkKR (kr_pos s) (kr_idx s) (kr_done s) (kr_cur s) (kr_ovl s) (kr_count s)
                              (match printable text with [] => kr_infos s | _ => kr_infos s ++ [(kr_count s, printable text)] end))
  | _ => Ok s
  end.
Definition bread (offsets : list N) (s : KfxRead) (b : block) : outcome KfxRead := beff (roll offsets s) b.
Lemma read_enc offsets b rest s : valid_block b -> kfx_block offsets (block_bytes b ++ rest) s = let! s := bread offsets s b in Ok (false, rest, s).
Proof.
  unfold bread. destruct b; cbn [valid_block block_bytes app]; intros V; unfold kfx_block; cbn [read_u8 obind]; fold (roll offsets s); generalize (roll offsets s); intros s1; tests; cbn [skipn beff obind read_u8]; try reflexivity; cbn [read_osb_block].
  - change (osb_of 1) with OsbStreamInfo. cbn iota. destruct V as [L _]. replace (fields ++ rest) with (firstn 6 fields ++ skipn 6 fields ++ rest) by (rewrite app_assoc, firstn_skipn; reflexivity).
    destruct (read_two_enc (firstn 6 fields) (skipn 6 fields) rest) as (p & ->); [rewrite firstn_length; lia|rewrite skipn_length; lia|]. reflexivity.
  - change (osb_of 2) with OsbIndex. cbn iota. destruct V as (A & B & C & D & _). rewrite <- !app_assoc. rewrite read_index_enc by assumption. reflexivity.
  - change (osb_of 3) with OsbStreamEnd. cbn iota. destruct V as (A & B & _). rewrite <- app_assoc. destruct (read_two_enc fields status rest A B) as (p & ->). cbn [obind]. destruct (_ || _); reflexivity.
  - change (osb_of 4) with OsbKfInfo. cbn iota. destruct V as (A & _ & C). rewrite <- !app_assoc. rewrite le16_enc by exact A. cbn [obind app]. rewrite ascii_enc by exact C. destruct (printable text); reflexivity.
  - rewrite osb_unknown by exact (proj2 V). reflexivity.
Qed.
Lemma read_eof offsets rest s : kfx_block offsets ([0x0D; 0x0D]%N ++ rest) s = Ok (true, rest, roll offsets s). Proof. reflexivity. Qed.
Lemma read_stream offsets : forall bs fuel rest s, Forall valid_block bs -> length bs < fuel ->
  kfx_read offsets fuel (stream_bytes bs rest) s = let! s := ofold (bread offsets) bs s in Ok (roll offsets s).
Proof.
  induction bs as [|b bs IH]; intros fuel rest s F L; (destruct fuel as [|fuel]; [lia|]); cbn [kfx_read].
  - unfold stream_bytes. cbn [flat_map app]. change (13%N :: 13%N :: rest) with ([13; 13]%N ++ rest). rewrite read_eof. reflexivity.
  - unfold stream_bytes. cbn [flat_map]. rewrite <- app_assoc. fold (stream_bytes bs rest). rewrite read_enc by exact (Forall_inv F). cbn [ofold]. destruct (bread offsets s b) as [s1| |]; cbn [obind]; [|reflexivity|reflexivity].
    cbn [length] in L. apply IH; [exact (Forall_inv_tail F)|lia].
Qed.

Definition from (lo : N) (l : list (N * N)) : list N := map snd (filter (fun x => (lo <=? fst x)%N) l).
Definition apart (offs : list N) : Prop := forall i a b, nth_error offs i = Some a -> nth_error offs (S i) = Some b -> (a + 3 <= b)%N.
Record inv (offs : list N) (T : list (N * N)) (s : KfxRead) : Prop := {
  i_len : kr_idx s = length (kr_done s);
  i_le : kr_idx s <= length offs;
  i_past : forall j o, j < kr_idx s -> nth_error offs j = Some o -> (o <= kr_pos s)%N;
  i_next : forall o, nth_error offs (kr_idx s) = Some o -> Forall (fun x => (fst x < o)%N) T /\ (kr_pos s < o + 3)%N;
  i_done : forall j a b, S j < kr_idx s -> nth_error offs j = Some a -> nth_error offs (S j) = Some b -> nth_error (kr_done s) (S j) = Some (between a b T);
  i_cur : forall k o, kr_idx s = S k -> nth_error offs k = Some o -> kr_cur s = from o T }.
Definition strict (offs : list N) (s : KfxRead) : Prop := forall o, nth_error offs (kr_idx s) = Some o -> (kr_pos s < o)%N.
Lemma from_bounded lo hi T : Forall (fun x => (fst x < hi)%N) T -> from lo T = between lo hi T.
Proof.
  unfold from, between. intros F. f_equal. induction F as [|x T H F IH]; [reflexivity|]. cbn [filter]. replace (fst x <? hi)%N with true by (symmetry; apply N.ltb_lt; exact H). rewrite andb_true_r, IH. reflexivity.
Qed.
Lemma from_none lo T : Forall (fun x => (fst x < lo)%N) T -> from lo T = [].
Proof. unfold from. induction 1 as [|x T H F IH]; [reflexivity|]. cbn [filter]. replace (lo <=? fst x)%N with false by (symmetry; apply N.leb_gt; exact H). exact IH. Qed.
Lemma roll_same offs s : kr_pos (roll offs s) = kr_pos s /\ kr_ovl (roll offs s) = kr_ovl s /\ kr_count (roll offs s) = kr_count s /\ kr_infos (roll offs s) = kr_infos s.
Proof. unfold roll. destruct (nth_error _ _); [destruct (_ <=? _)%N|]; auto. Qed.
Lemma roll_inv offs T s : apart offs -> inv offs T s -> inv offs T (roll offs s) /\ strict offs (roll offs s).
Proof.
  intros Ha I0. unfold roll. destruct (nth_error offs (kr_idx s)) as [o|] eqn:Eo.
  2:{ split; [exact I0|]. intros o H. rewrite Eo in H. discriminate. }
  destruct (N.leb_spec o (kr_pos s)) as [Ho|Ho].
  2:{ split; [exact I0|]. intros o2 H. rewrite Eo in H. injection H as <-. exact Ho. }
  destruct I0 as [L1 L2 P Nx D C]. destruct (Nx _ Eo) as [B1 B2]. assert (Lt : kr_idx s < length offs) by (apply nth_error_Some; congruence).
  split; [constructor; cbn [kr_idx kr_done kr_cur kr_pos]|].
  - rewrite app_length. cbn [length]. lia.
  - lia.
  - intros j o2 Hj E. destruct (Nat.eq_dec j (kr_idx s)) as [->|]; [rewrite Eo in E; injection E as <-; exact Ho|apply (P j); [lia|exact E]].
  - intros o2 E. pose proof (Ha _ _ _ Eo E) as Q. split; [|lia]. eapply Forall_impl; [|exact B1]. cbn beta. intros x Hx. lia.
  - intros j a b Hj Ea Eb. destruct (Nat.eq_dec (S j) (kr_idx s)) as [Ej|Nj].
    + rewrite nth_error_app2 by lia. replace (S j - length (kr_done s)) with 0 by lia. cbn [nth_error]. rewrite (C j a (eq_sym Ej) Ea). rewrite Ej, Eo in Eb. injection Eb as <-. f_equal. apply from_bounded. exact B1.
    + rewrite nth_error_app1 by lia. apply (D j); [lia|exact Ea|exact Eb].
  - intros k o2 Ek E. injection Ek as <-. rewrite Eo in E. injection E as <-. symmetry. apply from_none. exact B1.
  - intros o2 E. cbn [kr_idx kr_pos] in *. pose proof (Ha _ _ _ Eo E) as Q. lia.
Qed.
Lemma between_snoc_out a b T p v : (b <= p)%N -> between a b (T ++ [(p, v)]) = between a b T.
Proof. intros H. unfold between. rewrite filter_app. cbn [filter fst]. replace (p <? b)%N with false by (symmetry; apply N.ltb_ge; exact H). rewrite andb_false_r, app_nil_r. reflexivity. Qed.
Lemma from_snoc_in o T p v : (o <= p)%N -> from o (T ++ [(p, v)]) = from o T ++ [v].
Proof. intros H. unfold from. rewrite filter_app. cbn [filter fst]. replace (o <=? p)%N with true by (symmetry; apply N.leb_le; exact H). rewrite map_app. reflexivity. Qed.
Lemma skip_inv offs T s s' adv : inv offs T s -> strict offs s -> (adv <= 3)%N -> kr_pos s' = (kr_pos s + adv)%N -> kr_idx s' = kr_idx s -> kr_done s' = kr_done s -> kr_cur s' = kr_cur s -> inv offs T s'.
Proof.
  intros [L1 L2 P Nx D C] S0 Ha Ep Ei Ed Ec. constructor; rewrite ?Ep, ?Ei, ?Ed, ?Ec; try assumption.
  - intros j o Hj E. pose proof (P j o Hj E). lia.
  - intros o E. destruct (Nx o E) as [A B]. pose proof (S0 o E). split; [exact A|]. lia.
Qed.
Lemma push_inv offs T s adv flux s' : inv offs T s -> strict offs s -> (adv <= 3)%N -> kfx_push s adv flux = Ok s' -> inv offs (T ++ [(kr_pos s, kr_ovl s + flux)%N]) s'.
Proof.
  intros [L1 L2 P Nx D C] S0 Ha E. unfold kfx_push in E. destruct (_ <=? _)%N; [discriminate|]. apply (f_equal (fun x => match x with Ok y => y | _ => s' end)) in E. subst s'.
  cbv beta iota. constructor; cbn [kr_pos kr_idx kr_done kr_cur]; try assumption.
  - intros j o Hj E. pose proof (P j o Hj E). lia.
  - intros o E. destruct (Nx o E) as [A B]. pose proof (S0 o E). split; [apply Forall_app; split; [exact A|constructor; [cbn [fst]; assumption|constructor]]|]. lia.
  - intros j a b Hj Ea Eb. rewrite (D j a b Hj Ea Eb). f_equal. symmetry. apply between_snoc_out. apply (P (S j)); assumption.
  - intros k o Ek E. rewrite from_snoc_in; [rewrite (C k o Ek E); reflexivity|]. apply (P k); [lia|exact E].
Qed.
Definition hw_ok (b : block) : Prop := match b with BStreamEnd _ status => le status <> 1%N /\ le status <> 2%N | _ => True end.
Lemma run offs : apart offs -> forall bs s T ovl, inv offs T s -> kr_ovl s = N.min 0xFFFFFFFF ovl -> Forall hw_ok bs -> Forall (fun x => (snd x < 2 ^ 32)%N) (transitions counted (kr_pos s) ovl bs) ->
  exists s', ofold (bread offs) bs s = Ok s' /\ inv offs (T ++ transitions counted (kr_pos s) ovl bs) s' /\ kr_pos s' = (kr_pos s + total counted bs)%N /\ kr_infos s' = kr_infos s ++ texts (kr_count s) bs.
Proof.
  intros Ha. change (2 ^ 32)%N with 4294967296%N. induction bs as [|b bs IH]; intros s T ovl I0 Ho Hw F.
  - exists s. cbn [ofold transitions total fold_right texts]. rewrite !app_nil_r, N.add_0_r. auto.
  - cbn [ofold]. unfold bread at 1. destruct (roll_inv offs T s Ha I0) as [I1 S1]. destruct (roll_same offs s) as (Rp & Ro & Rc & Ri).
    generalize dependent (roll offs s). intros s1 I1 S1 Rp Ro Rc Ri. clear I0. rewrite <- Rp in F |- *. rewrite <- Rc, <- Ri. rewrite <- Ro in Ho. clear Rp Ro Rc Ri s.
    assert (Push : forall flux adv, counted b = adv -> (adv <= 3)%N -> beff s1 b = kfx_push s1 adv flux -> transitions counted (kr_pos s1) ovl (b :: bs) = (kr_pos s1, ovl + flux)%N :: transitions counted (kr_pos s1 + adv) 0 bs ->
        texts (kr_count s1) (b :: bs) = texts (S (kr_count s1)) bs ->
        exists s', (let! s := beff s1 b in ofold (bread offs) bs s) = Ok s' /\ inv offs (T ++ transitions counted (kr_pos s1) ovl (b :: bs)) s' /\ kr_pos s' = (kr_pos s1 + total counted (b :: bs))%N /\ kr_infos s' = kr_infos s1 ++ texts (kr_count s1) (b :: bs)).
    { intros flux adv Ec Ha3 Eb Et Ex. rewrite Et in F |- *. rewrite Eb, Ex. pose proof (Forall_inv F) as Hv. cbn [snd] in Hv. pose proof (Forall_inv_tail F) as F2.
      assert (Eo : kr_ovl s1 = ovl) by lia. destruct (kfx_push s1 adv flux) as [s2| |] eqn:Ep; [|unfold kfx_push in Ep; destruct (_ <=? _)%N; discriminate|unfold kfx_push in Ep; destruct (N.leb_spec 4294967296 (kr_ovl s1 + flux)); [lia|discriminate]].
      pose proof (push_inv offs T s1 adv flux s2 I1 S1 Ha3 Ep) as I2. rewrite Eo in I2. cbn [obind].
      assert (Q : kr_pos s2 = (kr_pos s1 + adv)%N /\ kr_ovl s2 = 0%N /\ kr_count s2 = S (kr_count s1) /\ kr_infos s2 = kr_infos s1).
      { unfold kfx_push in Ep. destruct (_ <=? _)%N; [discriminate|]. apply (f_equal (fun x => match x with Ok y => y | _ => s2 end)) in Ep. subst s2. cbn. auto. }
      destruct Q as (Qp & Qo & Qc & Qi). destruct (IH s2 (T ++ [(kr_pos s1, ovl + flux)%N]) 0%N I2) as (s' & R1 & R2 & R3 & R4); [rewrite Qo; reflexivity|exact (Forall_inv_tail Hw)|rewrite Qp; exact F2|].
      exists s'. split; [exact R1|]. rewrite Qp in R2, R3. rewrite Qc, Qi in R4. rewrite <- app_assoc in R2. cbn [app] in R2. split; [exact R2|]. split; [|exact R4]. rewrite R3. unfold total. cbn [fold_right]. rewrite Ec. lia. }
    assert (Skip : forall s2, beff s1 b = Ok s2 -> inv offs T s2 -> kr_pos s2 = (kr_pos s1 + counted b)%N -> forall ovl2, kr_ovl s2 = N.min 0xFFFFFFFF ovl2 -> kr_count s2 = kr_count s1 ->
        transitions counted (kr_pos s1) ovl (b :: bs) = transitions counted (kr_pos s1 + counted b) ovl2 bs -> kr_infos s2 ++ texts (kr_count s1) bs = kr_infos s1 ++ texts (kr_count s1) (b :: bs) ->
        exists s', (let! s := beff s1 b in ofold (bread offs) bs s) = Ok s' /\ inv offs (T ++ transitions counted (kr_pos s1) ovl (b :: bs)) s' /\ kr_pos s' = (kr_pos s1 + total counted (b :: bs))%N /\ kr_infos s' = kr_infos s1 ++ texts (kr_count s1) (b :: bs)).
    { intros s2 Eb I2 Ep ovl2 Eo Ec Et Ex. rewrite Eb. cbn [obind]. rewrite Et in F |- *. destruct (IH s2 T ovl2 I2) as (s' & R1 & R2 & R3 & R4); [exact Eo|exact (Forall_inv_tail Hw)|rewrite Ep; exact F|].
      exists s'. split; [exact R1|]. rewrite Ep in R2, R3. rewrite Ec in R4. split; [exact R2|]. split; [rewrite R3; unfold total; cbn [fold_right]; lia|]. rewrite R4. exact Ex. }
    destruct b.
    + apply (Push b 1%N); reflexivity || lia.
    + apply (Push (hi * 256 + lo)%N 2%N); reflexivity || lia.
    + apply (Push (hi * 256 + lo)%N 0%N); reflexivity || lia.
    + eapply (Skip _ eq_refl); [apply (skip_inv offs T s1 _ 0%N); try reflexivity; [exact I1|exact S1|lia|cbn [kr_pos]; lia]|cbn [kr_pos counted in_band]; lia| |reflexivity|reflexivity|reflexivity]. cbn [kr_ovl]. lia.
    + eapply (Skip _ eq_refl); [apply (skip_inv offs T s1 _ 1%N); try reflexivity; [exact I1|exact S1|lia]|reflexivity|exact Ho|reflexivity|reflexivity|reflexivity].
    + eapply (Skip _ eq_refl); [apply (skip_inv offs T s1 _ 2%N); try reflexivity; [exact I1|exact S1|lia]|reflexivity|exact Ho|reflexivity|reflexivity|reflexivity].
    + eapply (Skip _ eq_refl); [apply (skip_inv offs T s1 _ 3%N); try reflexivity; [exact I1|exact S1]|reflexivity|exact Ho|reflexivity|reflexivity|reflexivity].
    + apply (Skip s1 eq_refl I1 (eq_sym (N.add_0_r _)) ovl Ho eq_refl eq_refl eq_refl).
    + apply (Skip s1 eq_refl I1 (eq_sym (N.add_0_r _)) ovl Ho eq_refl eq_refl eq_refl).
    + apply (fun E => Skip s1 E I1 (eq_sym (N.add_0_r _)) ovl Ho eq_refl eq_refl eq_refl). cbn [beff]. destruct (Forall_inv Hw) as [A B]. apply N.eqb_neq in A, B. rewrite A, B. reflexivity.
    + eapply (Skip _ eq_refl); [apply (skip_inv offs T s1 _ 0%N); try reflexivity; [exact I1|exact S1|lia|cbn [kr_pos]; lia]|cbn [kr_pos counted in_band]; lia|exact Ho|reflexivity|reflexivity|].
      cbn [kr_infos texts]. destruct (printable text); [reflexivity|]. rewrite <- app_assoc. reflexivity.
    + apply (Skip s1 eq_refl I1 (eq_sym (N.add_0_r _)) ovl Ho eq_refl eq_refl eq_refl).
Qed.
