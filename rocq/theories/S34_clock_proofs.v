(* S34_clock_proofs.v - the clock map built from the markers of a track. *)
From Verif Require Import Base Base_lemmas Chs_model BitRing_model BitRing_proofs Mfm_model Mfm_spec Mfm_proofs
  System34_model System34_spec Stream_proofs S34_layout_proofs S34_format_proofs S34_scan_proofs.
From Coq Require Import Lia.

Lemma nth_upd_b (l : list bool) j b i : j < length l -> nth i (upd l j b) false = if i =? j then b else nth i l false.
Proof.
  intros H. rewrite <- !nth_default_eq. unfold nth_default. destruct (Nat.eqb_spec i j) as [->|Hne].
  - rewrite nth_error_upd_same by auto. reflexivity.
  - rewrite nth_error_upd_other by auto. reflexivity.
Qed.
Lemma bits_set_ok cm j b : j < length cm -> bits_set cm j b = Ok (upd cm j b).
Proof. intros H. unfold bits_set. destruct (Nat.ltb_spec j (length cm)); [reflexivity|lia]. Qed.

Lemma alternate_loop a : forall n s cm, a + 2 * (s + n) <= length cm ->
  exists cm', ofold (fun cm bi => let! cm := bits_set cm bi true in bits_set cm (bi + 1) false)
                    (map (fun k => a + 2 * k) (seq s n)) cm = Ok cm' /\ length cm' = length cm /\
    forall i, nth i cm' false = if (a + 2 * s <=? i) && (i <? a + 2 * (s + n)) then Nat.even (i - a) else nth i cm false.
Proof.
  induction n as [|n IH]; intros s cm Hl; cbn [seq map ofold].
  - exists cm. repeat split. intros i. destruct (Nat.leb_spec (a + 2 * s) i), (Nat.ltb_spec i (a + 2 * (s + 0))); auto; lia.
  - rewrite bits_set_ok by lia. cbn [obind]. rewrite bits_set_ok by (rewrite upd_length; lia). cbn [obind].
    destruct (IH (S s) (upd (upd cm (a + 2 * s) true) (a + 2 * s + 1) false)) as (cm' & E & El & Hn).
    { rewrite !upd_length. lia. }
    exists cm'. split; [exact E|]. rewrite !upd_length in El. split; [exact El|]. intros i. rewrite Hn.
    rewrite !nth_upd_b by (rewrite ?upd_length; lia).
    replace (a + 2 * (S s + n)) with (a + 2 * (s + S n)) by lia.
    destruct (Nat.ltb_spec i (a + 2 * (s + S n))) as [Hi|Hi]; rewrite ?andb_true_r, ?andb_false_r.
    + destruct (Nat.leb_spec (a + 2 * S s) i), (Nat.leb_spec (a + 2 * s) i); auto; try lia.
      * destruct (Nat.eqb_spec i (a + 2 * s + 1)) as [->|H1].
        { replace (a + 2 * s + 1 - a) with (S (2 * s)) by lia. rewrite Nat.even_succ, Nat.odd_mul. reflexivity. }
        destruct (Nat.eqb_spec i (a + 2 * s)) as [->|H2]; [|lia].
        replace (a + 2 * s - a) with (2 * s) by lia. rewrite Nat.even_mul. reflexivity.
      * destruct (Nat.eqb_spec i (a + 2 * s + 1)), (Nat.eqb_spec i (a + 2 * s)); auto; lia.
    + destruct (Nat.eqb_spec i (a + 2 * s + 1)), (Nat.eqb_spec i (a + 2 * s)); auto; lia.
Qed.

Lemma alternate_spec cm a b : a <= b -> a + 2 * ((b - a + 1) / 2) <= length cm ->
  exists cm', alternate cm a b = Ok cm' /\ length cm' = length cm /\
    forall i, nth i cm' false = if (a <=? i) && (i <? a + 2 * ((b - a + 1) / 2)) then Nat.even (i - a) else nth i cm false.
Proof.
  intros Hab Hl. unfold alternate, step2. destruct (alternate_loop a ((b - a + 1) / 2) 0 cm Hl) as (cm' & E & El & Hn).
  exists cm'. split; [exact E|]. split; [exact El|]. intros i. rewrite Hn. rewrite Nat.mul_0_r, Nat.add_0_r. reflexivity.
Qed.
Lemma even_sub16 i o : 16 * o <= i -> Nat.even (i - 16 * o) = Nat.even i.
Proof.
  intros H. replace i with ((i - 16 * o) + 2 * (8 * o)) at 2 by lia. rewrite Nat.even_add_mul_2. reflexivity.
Qed.

(* from position f on, clocks at even positions only *)
Definition clock_from (cm : list bool) (f e : nat) : Prop := forall i, f <= i < e -> nth i cm false = Nat.even i.

Lemma clock_fold L : forall cm f o, 0 < f -> f <= o -> clock_from cm (16 * f) (16 * o) ->
  incr 4 o (map snd L) -> (forall x, In x (map snd L) -> 16 * x < length cm) -> 16 * o < length cm ->
  exists cm' o', ofold (fun '(cm, last) '(_, bi) =>
             if 0 <? last then
               let! cm := bits_set cm (last - 1) false in
               let! cm := alternate cm last bi in Ok (cm, bi)
             else Ok (cm, bi)) (scaled L) (cm, 16 * o) = Ok (cm', 16 * o') /\ length cm' = length cm /\
     o <= o' /\ 16 * o' < length cm /\ clock_from cm' (16 * f) (16 * o').
Proof.
  induction L as [|[k x] L IH]; intros cm f o Hf Hfo HC Hi HL Ho; cbn [scaled map ofold].
  - exists cm, o. repeat split; auto.
  - inversion Hi as [|? ? ? Hox Ht]; subst.
    replace (0 <? 16 * o) with true by (symmetry; apply Nat.ltb_lt; lia).
    rewrite bits_set_ok by lia. cbn [obind].
    pose proof (HL x (or_introl eq_refl)) as Hx.
    assert (E2 : 16 * o + 2 * ((16 * x - 16 * o + 1) / 2) = 16 * x).
    { replace (16 * x - 16 * o + 1) with (1 + (8 * (x - o)) * 2) by lia. rewrite Nat.div_add by lia.
      change (1 / 2) with 0. lia. }
    destruct (alternate_spec (upd cm (16 * o - 1) false) (16 * o) (16 * x)) as (cm1 & E & El & Hn).
    { lia. } { rewrite upd_length, E2. lia. }
    rewrite upd_length in El. rewrite E. cbn [obind].
    destruct (IH cm1 f x) as (cm' & o' & R1 & R2 & R3 & R4 & R5); auto; try lia.
    + intros i Hi'. rewrite Hn, E2.
      destruct (Nat.leb_spec (16 * o) i) as [Hge|Hlt]; cbn [andb].
      * replace (i <? 16 * x) with true by (symmetry; apply Nat.ltb_lt; lia). apply even_sub16; auto.
      * rewrite nth_upd_b by lia. destruct (Nat.eqb_spec i (16 * o - 1)) as [->|Hne]; [|apply HC; lia].
        replace (16 * o - 1) with (S (2 * (8 * o - 1))) by lia. rewrite Nat.even_succ, Nat.odd_mul. reflexivity.
    + eapply incr_weaken; [exact Ht|lia].
    + intros y Hy. rewrite El. apply HL. right; auto.
    + exists cm', o'. rewrite El in *. repeat split; auto. lia.
Qed.

Definition first_mark (L : list (S34Marker * nat)) : nat := match L with [] => 0 | (_, o) :: _ => 16 * o end.

Lemma create_clock_map_spec L cm : incr 4 1 (map snd L) -> (forall x, In x (map snd L) -> 16 * x < length cm) -> 0 < length cm ->
  exists cm', create_clock_map (scaled L) cm = Ok cm' /\ length cm' = length cm /\
    forall i, first_mark L <= i < length cm -> (Nat.even i = false -> nth i cm' false = false) /\
       (Nat.even i = true -> S i < length cm -> nth i cm' false = true).
Proof.
  intros Hi HL Hpos. unfold create_clock_map.
  assert (G : exists cm1 o, ofold (fun '(cm, last) '(_, bi) =>
             if 0 <? last then
               let! cm := bits_set cm (last - 1) false in
               let! cm := alternate cm last bi in Ok (cm, bi)
             else Ok (cm, bi)) (scaled L) (cm, 0) = Ok (cm1, 16 * o) /\ length cm1 = length cm /\ 16 * o < length cm /\
             first_mark L <= 16 * o /\ clock_from cm1 (first_mark L) (16 * o)).
  { destruct L as [|[k x] L].
    - exists cm, 0. repeat split; auto. intros i Hii. cbn in Hii; lia.
    - inversion Hi as [|? ? ? Hx Ht]; subst. cbn [scaled map ofold]. change (0 <? 0) with false. cbn [obind].
      pose proof (HL x (or_introl eq_refl)) as Hxl.
      destruct (clock_fold L cm x x) as (cm1 & o' & R1 & R2 & R3 & R4 & R5); auto; try lia.
      + intros i Hii; lia.
      + eapply incr_weaken; [exact Ht|lia].
      + intros y Hy. apply HL; right; auto.
      + exists cm1, o'. cbn [first_mark]. repeat split; auto. lia. }
  destruct G as (cm1 & o & E & El & Ho & Hfo & HC). rewrite E. cbn [obind].
  assert (G2 : exists cm2, (if 0 <? 16 * o then bits_set cm1 (16 * o - 1) false else Ok cm1) = Ok cm2 /\ length cm2 = length cm /\
               clock_from cm2 (first_mark L) (16 * o)).
  { destruct (Nat.ltb_spec 0 (16 * o)).
    - rewrite bits_set_ok by lia. eexists; split; [reflexivity|]. rewrite upd_length. split; auto.
      intros i Hii. rewrite nth_upd_b by lia. destruct (Nat.eqb_spec i (16 * o - 1)) as [->|]; [|apply HC; auto].
      replace (16 * o - 1) with (S (2 * (8 * o - 1))) by lia. rewrite Nat.even_succ, Nat.odd_mul. reflexivity.
    - exists cm1. auto. }
  destruct G2 as (cm2 & -> & El2 & HC2). cbn [obind].
  destruct (Nat.eqb_spec (length cm2) 0); [lia|].
  pose proof (Nat.div_mod (length cm2 - 1 - 16 * o + 1) 2 ltac:(lia)) as Hdm.
  pose proof (Nat.mod_upper_bound (length cm2 - 1 - 16 * o + 1) 2 ltac:(lia)) as Hmb.
  set (h := (length cm2 - 1 - 16 * o + 1) / 2) in *. set (r := (length cm2 - 1 - 16 * o + 1) mod 2) in *.
  destruct (alternate_spec cm2 (16 * o) (length cm2 - 1)) as (cm3 & E3 & El3 & Hn).
  { lia. } { fold h. lia. }
  exists cm3. split; [exact E3|]. split; [lia|]. fold h in Hn. clearbody h r.
  intros i [Hi1 Hi2]. rewrite Hn.
  destruct (Nat.leb_spec (16 * o) i) as [Hge|Hlt]; cbn [andb].
  - destruct (Nat.ltb_spec i (16 * o + 2 * h)) as [H1|H1].
    + rewrite even_sub16 by auto. split; auto.
    + (* the last position of an odd map *)
      assert (Ei : i = 16 * o + 2 * h) by lia. split; [|lia].
      intros Ev. exfalso. subst i. rewrite Nat.even_add, !Nat.even_mul in Ev. discriminate.
  - rewrite HC2 by lia. split; auto.
Qed.
