(* Further statements about addressing and layouts (C04, C05, C41): exact characterisations. *)
From Verif Require Import Base Base_lemmas Chs_model Chs_spec Chs_proofs.
From Coq Require Import NArith List Lia Bool ZifyBool ZifyN.
Import ListNotations.
Local Open Scope N_scope.

(* C04: which sector addresses the offset query accepts: every sector of the disk, and besides those
   only addresses whose sector number lies below the first sector number of the layout. *)
Theorem C04_accepted : forall g x,
  to_raw_offset x g <> None <->
  on_disk g x \/ (chs_c x < l_c g /\ chs_h x < l_h g /\ 0 < l_s g /\ chs_s x < l_s_off g).
Proof.
  intros g x. unfold to_raw_offset, layout_contains, on_disk.
  destruct (N.ltb_spec (chs_c x) (l_c g)), (N.ltb_spec (chs_h x) (l_h g)), (N.ltb_spec (chs_s x - l_s_off g) (l_s g));
    cbn [andb]; split; intros H'; try congruence; try lia; try (destruct H'; lia).
Qed.
Example C04_accepted_ex :
  to_raw_offset (mkChs 39 1 9) (mkLayout 40 2 9 1 512) <> None /\ to_raw_offset (mkChs 39 1 10) (mkLayout 40 2 9 1 512) = None.
Proof. split; [vm_compute; discriminate|reflexivity]. Qed.

(* C05: the size in bytes of every size code 0..255. *)
Theorem C05_all_codes : forall n, n < 256 ->
  (n mod 64 <= 6 -> n_to_bytes n = 128 * 2 ^ (n mod 64)) /\
  (7 <= n mod 64 <= 56 -> n_to_bytes n = 8192) /\
  (57 <= n mod 64 -> n_to_bytes n = 0).
Proof.
  intros n Hn.
  assert (F : forallb (fun n => if n mod 64 <=? 6 then n_to_bytes n =? 128 * 2 ^ (n mod 64)
                               else if n mod 64 <=? 56 then n_to_bytes n =? 8192 else n_to_bytes n =? 0) (Nseq 256) = true)
    by (vm_compute; reflexivity).
  rewrite forallb_forall in F. specialize (F n ltac:(apply in_Nseq; lia)).
  destruct (N.leb_spec (n mod 64) 6), (N.leb_spec (n mod 64) 56); apply N.eqb_eq in F; repeat split; intros; auto; lia.
Qed.
Example C05_all_codes_ex : n_to_bytes 2 = 512 /\ n_to_bytes 66 = 512 /\ n_to_bytes 200 = 8192 /\ n_to_bytes 255 = 0.
Proof. vm_compute; auto. Qed.

(* C41: exactly which geometries are proposed for a raw image of a given size. *)
Definition usual_cylinders (c : N) : Prop := 39 <= c < 45 \/ 79 <= c <= 85.
Definition proposed_geometry (c h s : N) : Prop :=
  8 <= s <= 18 /\
  (h = 2 /\ usual_cylinders c \/
   h = 1 /\ (N.odd c = true /\ usual_cylinders c \/ N.even c = true /\ 78 <= c <= 88)).

Lemma odd_mod c : N.odd c = negb (c mod 2 =? 0).
Proof. pose proof (N.bit0_mod c) as H. rewrite N.bit0_odd in H. rewrite <- H. destruct (N.odd c); reflexivity. Qed.
Lemma even_mod c : N.even c = (c mod 2 =? 0).
Proof. rewrite <- N.negb_odd, odd_mod, negb_involutive. auto. Qed.

Lemma candidate_exact total z spt g :
  0 < spt -> spt <= 18 -> In g (derive_candidate total z spt) -> l_h g = 1 -> l_c g mod 2 <> 0.
Proof.
  intros H0 H18. unfold derive_candidate.
  destruct (N.eqb_spec (total mod spt) 0) as [E|E]; cbn [negb]; [|intros []].
  set (tt := total / spt). clearbody tt.
  destruct (N.eqb_spec (tt mod 2) 0) as [E2|E2].
  - match goal with |- In _ (if ?b then _ else _) -> _ => destruct b end; [|intros []].
    intros [<-|[]]; cbn [l_c l_h]. unfold as_u8. vm_compute. discriminate.
  - rewrite N.div_1_r. destruct (N.leb_spec 39 tt); destruct (N.leb_spec tt 85); cbn [andb]; try (intros []; fail).
    match goal with |- In _ (if ?b then _ else _) -> _ => destruct b end; [|intros []]. intros [<-|[]] _; cbn [l_c]. unfold as_u16. rewrite (N.mod_small tt) by lia. auto.
Qed.

Theorem C41_exact : forall size z c h s, 0 < z ->
  (exists ls, derive_matches size z = Ok (Some ls) /\ In (mkLayout c h s 0 z) ls) <->
  c * h * s * z = size /\ proposed_geometry c h s.
Proof.
  intros size z c h s Hz. split.
  - intros (ls & E & Hin). pose proof E as E0. apply derive_matches_sound in E0 as [_ F].
    rewrite Forall_forall in F. specialize (F _ Hin). unfold layout_bytes in F.
    cbn [l_c l_h l_s l_s_off l_size] in F. destruct F as (F1 & _ & F2 & _ & F3).
    split; [exact F1|]. split; [exact F2|].
    unfold derive_matches in E. destruct (N.eqb_spec z 0); [lia|].
    destruct (negb (size mod z =? 0)); [discriminate|].
    set (ms := flat_map (derive_candidate (size / z) z) [8;9;10;11;12;13;14;15;16;17;18]) in E.
    assert (L : ls = flat_map equivalents (stable_sort_by (fun g => normal_cylinder_distance (l_c g)) ms)).
    { clearbody ms. destruct ms; [discriminate|]. congruence. }
    rewrite L in Hin. apply in_flat_map in Hin as (g & Hg & He). apply stable_sort_by_in in Hg.
    apply in_flat_map in Hg as (spt & Hspt & Hg).
    assert (Hr : 8 <= spt <= 18) by (cbn [In] in Hspt; lia).
    assert (Hp : 0 < spt) by lia. assert (Hq : spt <= 18) by lia.
    pose proof (candidate_exact _ _ _ _ Hp Hq Hg) as Hg1.
    apply derive_candidate_spec in Hg as (A & B & C & D & Hh & V); [|lia|lia].
    unfold valid_cyl in V. unfold usual_cylinders. rewrite odd_mod, even_mod.
    unfold equivalents in He.
    destruct Hh as [H1|H2].
    + specialize (Hg1 H1). rewrite H1 in He.
      destruct (N.eqb_spec (l_c g mod 2) 0) as [E2|E2]; [lia|]. rewrite andb_false_r in He. cbn [andb] in He.
      change (1 =? 2) with false in He. rewrite andb_false_r in He.
      destruct He as [He|[]]; subst g; cbn [l_c l_h] in *.
      right. split; [auto|]. left. split; [|auto].
      apply negb_true_iff, N.eqb_neq; auto.
    + rewrite H2 in He. change (2 =? 1) with false in He. rewrite andb_false_r in He. cbn [andb] in He.
      change (2 =? 2) with true in He. rewrite andb_true_r in He.
      destruct (N.leb_spec (l_c g) 45) as [H45|H45].
      * destruct He as [He|[He|[]]].
        -- subst g; cbn [l_c l_h] in *. left; split; auto.
        -- injection He; intros. subst. right. split; [reflexivity|]. right. split; [|lia].
           apply N.eqb_eq. apply N.mod_mul; lia.
      * destruct He as [He|[]]. subst g; cbn [l_c l_h] in *. left; split; auto.
  - intros (Hs & Hr & Hg). destruct Hg as [[-> V]|[-> [[Ho V]|[Hev V]]]].
    + apply derive_matches_complete; auto.
    + apply derive_matches_complete; auto.
    + (* 78 and 86, 88 are not covered by the completeness lemma; same argument through c / 2 *)
      unfold derive_matches. destruct (N.eqb_spec z 0); [lia|].
      assert (Em : size mod z = 0) by (rewrite <- Hs; apply N.mod_mul; lia).
      assert (Ed : size / z = c * 1 * s) by (rewrite <- Hs; apply N.div_mul; lia).
      rewrite Em, Ed. change (0 =? 0) with true. cbn [negb].
      set (ms := flat_map (derive_candidate (c * 1 * s) z) [8;9;10;11;12;13;14;15;16;17;18]).
      rewrite even_mod in Hev. apply N.eqb_eq in Hev.
      assert (Hhalf : c = 2 * (c / 2)) by (pose proof (N.div_mod c 2); lia).
      assert (Hcand : In (mkLayout (c / 2) 2 s 0 z) (derive_candidate (c * 1 * s) z s) /\
                      In (mkLayout c 1 s 0 z) (equivalents (mkLayout (c / 2) 2 s 0 z))).
      { set (k := c / 2) in *. clearbody k. subst c. split.
        - unfold derive_candidate. rewrite N.mod_mul, N.div_mul by lia. change (0 =? 0) with true. cbn [negb].
          replace (2 * k * 1) with (k * 2) by lia. rewrite N.mod_mul by lia. change (0 =? 0) with true. cbv iota.
          rewrite N.div_mul by lia.
          destruct (N.leb_spec 39 k); destruct (N.leb_spec k 85); destruct (N.leb_spec 45 k); try lia; cbn [andb negb].
          left. unfold as_u16, as_u8. rewrite !N.mod_small by lia. reflexivity.
        - unfold equivalents; cbn [l_c l_h l_s l_s_off l_size]. change (2 =? 1) with false. rewrite andb_false_r.
          destruct (N.leb_spec k 45); [|lia]. change (2 =? 2) with true. cbn [andb]. right; left. f_equal; lia. }
      destruct Hcand as [Hg He].
      assert (Hgm : In (mkLayout (c / 2) 2 s 0 z) ms).
      { apply in_flat_map. exists s. split; auto.
        assert (In s (map (N.add 8) (Nseq 11))).
        { apply in_map_iff. exists (s - 8). split; [lia|]. apply in_Nseq; lia. }
        exact H. }
      destruct ms as [|m ms'] eqn:Ems; [destruct Hgm|].
      eexists; split; [reflexivity|]. apply in_flat_map. eexists; split; [|exact He]. apply stable_sort_by_in; auto.
Qed.
Example C41_exact_ex : (exists ls, derive_matches 737280 512 = Ok (Some ls) /\ In (mkLayout 80 2 9 0 512) ls) /\
  ~ (exists ls, derive_matches 163840 512 = Ok (Some ls) /\ In (mkLayout 40 1 8 0 512) ls).
Proof.
  split.
  - apply C41_exact; [reflexivity|]. split; [reflexivity|]. split; [lia|]. left; split; [reflexivity|]. right; lia.
  - rewrite C41_exact by reflexivity. intros (_ & _ & [[? ?]|[_ [[H _]|[_ H]]]]); try discriminate; lia.
Qed.

Print Assumptions C04_accepted.
Print Assumptions C05_all_codes.
Print Assumptions C41_exact.
