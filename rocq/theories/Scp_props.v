(* Scp_props.v - C64: SuperCard Pro files. *)
From Verif Require Import Base Base_lemmas Chs_model BitRing_model Mfm_model Types_model System34_model MetaSector_model BitStream_model
  DiskImage_model DiskImage_spec DiskImage_proofs Raw_model F86_model Tc_model Tc_proofs Hxc_model Hxc_proofs Layout_spec Pll_model Flux_model Flux_spec Flux_proofs Scp_model Scp_spec Scp_proofs.
From Coq Require Import Lia.
Import ListNotations.
Local Open Scope nat_scope.

Lemma land_bit x : (N.land x 0x40 =? 0)%N = negb (N.testbit x 6).
Proof.
  destruct (N.eqb_spec (N.land x 0x40) 0) as [E|E].
  - apply (f_equal (fun v => N.testbit v 6)) in E. rewrite N.land_spec in E. change (N.testbit 0x40 6) with true in E. rewrite Bool.andb_true_r in E. rewrite E. reflexivity.
  - destruct (N.testbit x 6) eqn:B; [reflexivity|]. exfalso. apply E. apply N.bits_inj. intros i. rewrite N.land_spec, N.bits_0. change 0x40%N with (2 ^ 6)%N.
    destruct (N.eq_dec i 6) as [->|D]; [rewrite B; reflexivity|]. rewrite N.pow2_bits_false by congruence. apply Bool.andb_false_r.
Qed.
(* the loader once the header is read *)
Definition scp_after (dec : Decoder) (d : DiskImage) (file : list N) : outcome DiskImage :=
  if negb (forallb (fun p => fst p =? snd p)%N (combine (bytes_at file 0 3) [0x53; 0x43; 0x50]%N)) then Err UnsupportedFormat else
  if negb (scp_known_type (byte_at file 4)) then Err IncompatibleImage else
  if N.testbit (byte_at file 8) 6 then Err IncompatibleImage else
  if negb (byte_at file 9 =? 0)%N then Err IncompatibleImage else
  let! heads := (if (byte_at file 10 =? 0)%N then Ok 2%N else if (byte_at file 10 =? 1)%N then Ok 1%N else Err IncompatibleImage) in
  if negb (20 <=? length file) then Err IoError else
  if (scp_entry file 0 <? 0x10)%N then Err ImageCorruptError else
  let max := ((scp_entry file 0 - 0x10) / 4)%N in
  if (max =? 0)%N then Panic else
  let! os := scp_offsets (N.to_nat (max - 1)) (skipn 20 file) (scp_entry file 0) (N.of_nat (length file)) in
  let! (ch, d) := scp_tracks dec file (mkCh 84 heads) (N.to_nat (byte_at file 5)) (25 + byte_at file 11 * 25) (scp_entry file 0 :: os) None (mkCh 0 0) d in
  Ok (with_geom d (mkCh (ch_c ch + 1) heads)).
Lemma load_after dec d file : scp_load_image dec d file = if length file <? 16 then Err IoError else scp_after dec d file.
Proof.
  unfold scp_load_image. change file with (skipn 0 file) at 1. rewrite exact_pos by lia. change (0 + 16) with 16.
  destruct (Nat.ltb_spec (length file) 16) as [A|A].
  - replace (16 <=? length file) with false by (symmetry; apply Nat.leb_gt; exact A). reflexivity.
  - rewrite step_ok by inside. rewrite first3 by lia. rewrite !bytes_at_nth by lia. cbn [Nat.add]. rewrite land_bit, Bool.negb_involutive. unfold scp_after.
    destruct (negb _); [reflexivity|]. destruct (negb _); [reflexivity|]. destruct (N.testbit _ _); [reflexivity|]. destruct (negb _); [reflexivity|].
    destruct (if (byte_at file 10 =? 0)%N then _ else _) as [heads| |]; cbn [obind]; [|reflexivity|reflexivity].
    rewrite le32_pos. change (16 + 4) with 20. destruct (20 <=? length file); cbn [obind negb]; reflexivity.
Qed.
Lemma known_type t : scp_known_type t = true <-> In (N.land t 0xF0) [0x00; 0x10; 0x20; 0x30; 0x40; 0x50; 0x60; 0x70; 0x80; 0xE0; 0xF0]%N.
Proof.
  unfold scp_known_type. rewrite existsb_exists. split; [intros (x & I & E); apply N.eqb_eq in E; rewrite E; exact I|]. intros I. exists (N.land t 0xF0). split; [exact I|apply N.eqb_refl].
Qed.
Lemma revs_spec file revs i : scp_revolutions 65535 file revs i (map (rev_of file (25 + byte_at file 11 * 25) (N.to_nat (scp_entry file i))) (seq 0 revs)).
Proof.
  split; [rewrite map_length, seq_length; reflexivity|]. intros r Hr. exists (scp_convert 0 (scp_words file (N.to_nat (scp_entry file i)) r)).
  split; [apply convert_words; reflexivity|]. rewrite nth_error_map_seq. replace (r <? revs) with true by (symmetry; apply Nat.ltb_lt; exact Hr). cbn [Nat.add]. unfold rev_of. replace (25 + 25 * byte_at file 11)%N with (25 + byte_at file 11 * 25)%N by lia. reflexivity.
Qed.
Lemma revs_unique file revs i rs rs' : scp_revolutions 65535 file revs i rs -> scp_revolutions 65535 file revs i rs' -> rs = rs'.
Proof.
  intros [L H] [L' H']. apply list_eq_nth_error. intros r. destruct (Nat.lt_ge_cases r revs) as [A|A].
  - destruct (H r A) as (t & W & ->). destruct (H' r A) as (t' & W' & ->). apply convert_words in W, W'. rewrite <- W, <- W'. reflexivity.
  - rewrite !(proj2 (nth_error_None _ _)) by lia. reflexivity.
Qed.
Lemma heads_12 file n heads revs : scp_file file n heads revs -> heads = 1 \/ heads = 2.
Proof. intros V. destruct (sf_heads _ _ _ _ V) as [[_ ->]|[_ ->]]; auto. Qed.
Lemma file_long file n heads revs : scp_file file n heads revs -> (20 <= scp_entry file 0)%N /\ (16 + 4 * ((scp_entry file 0 - 16) / 4) <= scp_entry file 0)%N /\ (scp_entry file 0 + 4 <= N.of_nat (length file))%N.
Proof.
  intros V. destruct (sf_table _ _ _ _ V) as [A B]. destruct (sf_some _ _ _ _ V) as [C _]. destruct (sf_tracks _ _ _ _ V 0 ltac:(lia)) as [D _ _].
  split; [exact A|]. split; [|lia]. pose proof (N.mul_div_le (scp_entry file 0 - 16) 4 ltac:(discriminate)). lia.
Qed.
Lemma after_valid dec d file n heads revs : scp_file file n heads revs ->
  scp_load_image dec d file =
  (let! (ch, d) := scp_tracks dec file (mkCh 84 (N.of_nat heads)) revs (25 + byte_at file 11 * 25) (map (scp_entry file) (seq 0 n)) (iter_at heads 0) (mkCh 0 0) d in
   Ok (with_geom d (mkCh (ch_c ch + 1) (N.of_nat heads)))).
Proof.
  intros V. destruct (file_long _ _ _ _ V) as (L1 & L2 & L3). rewrite load_after. replace (length file <? 16) with false by (symmetry; apply Nat.ltb_ge; lia). unfold scp_after.
  rewrite (proj2 (magic_eq [0x53; 0x43; 0x50]%N (bytes_at file 0 3) ltac:(rewrite bytes_len by lia; reflexivity)) (sf_magic _ _ _ _ V)). cbn [negb].
  rewrite (proj2 (known_type _) (sf_type _ _ _ _ V)), (sf_flags _ _ _ _ V), (sf_width _ _ _ _ V). change (0 =? 0)%N with true. cbn [negb].
  assert (Eh : (if (byte_at file 10 =? 0)%N then Ok 2%N else if (byte_at file 10 =? 1)%N then Ok 1%N else Err IncompatibleImage) = Ok (N.of_nat heads)).
  { destruct (sf_heads _ _ _ _ V) as [[-> ->]|[-> ->]]; reflexivity. }
  rewrite Eh. cbn [obind]. replace (20 <=? length file) with true by (symmetry; apply Nat.leb_le; lia). cbn [negb].
  replace (scp_entry file 0 <? 0x10)%N with false by (symmetry; apply N.ltb_ge; lia). cbv zeta.
  destruct (sf_table _ _ _ _ V) as [_ B]. destruct (sf_some _ _ _ _ V) as [C _].
  set (m := ((scp_entry file 0 - 16) / 4)%N) in *. replace (m =? 0)%N with false by (symmetry; apply N.eqb_neq; lia).
  assert (Eo : scp_offsets (N.to_nat (m - 1)) (skipn 20 file) (scp_entry file 0) (N.of_nat (length file)) = Ok (map (scp_entry file) (seq 1 (n - 1)))).
  { change 20 with (16 + 4 * 1). change (scp_entry file 0) with (scp_entry file (1 - 1)). apply offsets_ok; [lia| |lia| |lia].
    - intros j Hj. pose proof (sf_rising _ _ _ _ V (j - 1) ltac:(lia)) as R. replace (S (j - 1)) with j in R by lia. exact R.
    - intros Hk. replace (1 + (n - 1)) with n by lia. apply (sf_end _ _ _ _ V). fold m. lia. }
  rewrite Eo. cbn [obind iter_at]. rewrite (sf_revs _ _ _ _ V), Nnat.Nat2N.id. replace (seq 0 n) with (0 :: seq 1 (n - 1)) by (destruct n; [lia|]; cbn [seq Nat.sub]; rewrite Nat.sub_0_r; reflexivity). reflexivity.
Qed.
Lemma default_free : flux_free di_default. Proof. split; [reflexivity|left; reflexivity]. Qed.
Lemma default_wf : wf di_default ([], []). Proof. apply empty_wf; reflexivity. Qed.

(* ---- C64 ---- *)
(* A SuperCard Pro file gives one flux track per table entry, cylinder by cylinder and head by head, made of exactly the revolutions stored for
   it.  Zero words count 65535 ticks. *)
Theorem C64_load : forall dec file n heads revs rs bs, scp_file file n heads revs ->
  (forall i, i < n -> scp_revolutions 65535 file revs i (rs i)) ->
  (forall i, i < n -> dec (ch_at heads i) (synthesize (rs i)) = Ok (bs i)) ->
  exists d' s', scp_load_image dec di_default file = Ok d' /\ maps_valid d' /\ shows d' s' /\
    di_geom d' = mkCh (N.of_nat ((n - 1) / heads + 1)) (N.of_nat heads) /\
    laid heads n (fun i => flux_track (ch_at heads i) (bs i)) s'.
Proof.
  intros dec file n heads revs rs bs V HR HD. rewrite (after_valid _ _ _ _ _ _ V). pose proof (heads_12 _ _ _ _ V) as Hh. destruct (sf_some _ _ _ _ V) as [Hn1 Hn2].
  destruct (go_ok dec file heads revs (25 + byte_at file 11 * 25) Hh bs n 0 (mkCh 0 0) di_default ([], []) Hn2) as (d' & s' & E & W & L).
  - intros k Hk. apply (sf_tracks _ _ _ _ V). lia.
  - intros k Hk. rewrite <- (HD k) by lia. do 2 f_equal. apply (revs_unique file revs k); [apply revs_spec|apply HR; lia].
  - exact default_wf.
  - exact default_free.
  - apply laid_nil. exact Hh.
  - rewrite E. cbn [obind]. eexists. exists s'. split; [reflexivity|]. assert (W' : wf (with_geom d' (mkCh (N.of_nat ((n - 1) / heads + 1)) (N.of_nat heads))) s') by exact W.
    assert (Eg : (ch_c (match n with 0%nat => mkCh 0 0 | S _ => ch_at heads (0 + n - 1)%nat end) + 1 = N.of_nat ((n - 1) / heads + 1)%nat)%N).
    { destruct n as [|n]; [lia|]. cbn [ch_at ch_c]. rewrite Nat.add_0_l. lia. }
    rewrite Eg. split; [exact (proj1 W')|]. split; [apply wf_shows; exact W'|]. split; [reflexivity|exact L].
Qed.
(* What the words of a file stand for is unique, so the revolutions above are. *)
Theorem C64_words : forall words, exists! times, flux_words 65535 words times.
Proof.
  intros words. exists (scp_convert 0 words). split; [apply convert_words; reflexivity|]. intros t H. apply convert_words in H. exact H.
Qed.
(* Only such files load. *)
Theorem C64_only : forall dec file d', scp_load_image dec di_default file = Ok d' ->
  exists n heads revs, scp_file file n heads revs /\ forall i rs, i < n -> scp_revolutions 65535 file revs i rs -> exists bs, dec (ch_at heads i) (synthesize rs) = Ok bs.
Proof.
  intros dec file d' E. rewrite load_after in E. destruct (Nat.ltb_spec (length file) 16) as [A|A]; [discriminate|]. unfold scp_after in E.
  destruct (forallb _ _) eqn:M; [|discriminate]. cbn [negb] in E. destruct (scp_known_type _) eqn:T; [|discriminate]. cbn [negb] in E.
  destruct (N.testbit _ _) eqn:Fl; [discriminate|]. destruct (N.eqb_spec (byte_at file 9) 0) as [Wd|]; [|discriminate]. cbn [negb] in E.
  assert (Eh : exists heads, (byte_at file 10 = 0%N /\ heads = 2 \/ byte_at file 10 = 1%N /\ heads = 1) /\
    (if (byte_at file 10 =? 0)%N then Ok 2%N else if (byte_at file 10 =? 1)%N then Ok 1%N else Err IncompatibleImage) = Ok (N.of_nat heads)).
  { destruct (N.eqb_spec (byte_at file 10) 0) as [B|B]; [exists 2; split; [left; split; [exact B|reflexivity]|reflexivity]|].
    destruct (N.eqb_spec (byte_at file 10) 1) as [C|C]; [exists 1; split; [right; split; [exact C|reflexivity]|reflexivity]|discriminate]. }
  destruct Eh as (heads & Hb & Eh). rewrite Eh in E. cbn [obind] in E. assert (Hh : heads = 1 \/ heads = 2) by tauto.
  destruct (Nat.leb_spec 20 (length file)) as [B|B]; [|discriminate]. cbn [negb] in E.
  destruct (N.ltb_spec (scp_entry file 0) 0x10) as [C|C]; [discriminate|]. cbv zeta in E. set (m := ((scp_entry file 0 - 16) / 4)%N) in *.
  destruct (N.eqb_spec m 0) as [D|D]; [discriminate|].
  destruct (scp_offsets _ _ _ _) as [os| |] eqn:Eo; try discriminate. change 20 with (16 + 4 * 1) in Eo. change (scp_entry file 0) with (scp_entry file (1 - 1)) in Eo.
  destruct (offsets_inv file _ 1 os ltac:(lia) Eo) as (k & K1 & -> & K2 & K3). cbn [obind] in E.
  destruct (scp_tracks _ _ _ _ _ _ _ _ _) as [x| |] eqn:Et; try discriminate. clear E.
  change (scp_entry file 0 :: map (scp_entry file) (seq 1 k)) with (map (scp_entry file) (seq 0 (S k))) in Et. change None with (iter_at heads 0) in Et.
  destruct (go_inv dec file heads _ _ Hh (S k) 0 _ _ _ _ ltac:(lia) Et default_wf default_free) as (G1 & G2 & G3).
  exists (S k), heads, (N.to_nat (byte_at file 5)). split.
  - constructor.
    + apply magic_eq in M; [exact M|]. rewrite bytes_len by lia. reflexivity.
    + apply known_type. exact T.
    + lia.
    + exact Fl.
    + exact Wd.
    + exact Hb.
    + lia.
    + fold m. split; [|lia]. apply N.nlt_ge. intros G. apply D. apply N.div_small. lia.
    + intros i Hi. pose proof (K2 (S i) ltac:(lia)) as R. replace (S i - 1) with i in R by lia. exact R.
    + fold m. intros G. apply K3. lia.
    + intros i Hi. apply G2. lia.
  - intros i rs Hi R. destruct (G3 i ltac:(lia)) as (bs & Ed). exists bs. rewrite <- Ed. do 2 f_equal. apply (revs_unique file (N.to_nat (byte_at file 5)) i); [exact R|apply revs_spec].
Qed.
(* The only panics: decoding a track, a first entry too small for a table, more than 84 tracks per head, an index time above 2^32 ns. *)
Theorem C64_panics : forall dec file, scp_load_image dec di_default file = Panic ->
  (exists ch rs, dec ch rs = Panic) \/ (16 <= scp_entry file 0 < 20)%N \/
  (exists n heads, (heads = 1 \/ heads = 2) /\ 84 * heads < n /\ forall i, S i < n -> (scp_entry file i < scp_entry file (S i))%N) \/
  exists i r, (2 ^ 32 <= scp_index file (N.to_nat (scp_entry file i)) r * 25)%N.
Proof.
  intros dec file E. rewrite load_after in E. destruct (Nat.ltb_spec (length file) 16) as [A|A]; [discriminate|]. unfold scp_after in E.
  destruct (negb _); [discriminate|]. destruct (negb _); [discriminate|]. destruct (N.testbit _ _); [discriminate|]. destruct (negb _); [discriminate|].
  assert (Eh : (exists heads, (heads = 1 \/ heads = 2) /\ (if (byte_at file 10 =? 0)%N then Ok 2%N else if (byte_at file 10 =? 1)%N then Ok 1%N else Err IncompatibleImage) = Ok (N.of_nat heads)) \/
    (if (byte_at file 10 =? 0)%N then Ok 2%N else if (byte_at file 10 =? 1)%N then Ok 1%N else Err IncompatibleImage) = Err IncompatibleImage).
  { destruct (_ =? 0)%N; [left; exists 2; split; [auto|reflexivity]|]. destruct (_ =? 1)%N; [left; exists 1; split; [auto|reflexivity]|right; reflexivity]. }
  destruct Eh as [(heads & Hh & Eh)|Eh]; rewrite Eh in E; cbn [obind] in E; [|discriminate].
  destruct (negb _); [discriminate|]. destruct (N.ltb_spec (scp_entry file 0) 0x10) as [C|C]; [discriminate|]. cbv zeta in E. set (m := ((scp_entry file 0 - 16) / 4)%N) in *.
  destruct (N.eqb_spec m 0) as [D|D].
  { right. left. split; [exact C|]. unfold m in D. apply N.div_small_iff in D; [lia|discriminate]. }
  destruct (scp_offsets _ _ _ _) as [os| |] eqn:Eo; [|discriminate|exfalso; exact (offsets_no_panic _ _ _ _ Eo)].
  change 20 with (16 + 4 * 1) in Eo. change (scp_entry file 0) with (scp_entry file (1 - 1)) in Eo.
  destruct (offsets_inv file _ 1 os ltac:(lia) Eo) as (k & K1 & -> & K2 & K3). cbn [obind] in E.
  destruct (scp_tracks _ _ _ _ _ _ _ _ _) as [[c x]| |] eqn:Et; [discriminate|discriminate|]. clear E.
  change (scp_entry file 0 :: map (scp_entry file) (seq 1 k)) with (map (scp_entry file) (seq 0 (S k))) in Et. change None with (iter_at heads 0) in Et.
  destruct (go_panic dec file heads _ _ Hh (S k) 0 _ _ ltac:(lia) Et) as [G|[(i & r & G1 & G2 & G3)|(i & rs & G1 & G2)]].
  - right. right. left. exists (S k), heads. split; [exact Hh|]. split; [exact G|]. intros i Hi. pose proof (K2 (S i) ltac:(lia)) as R. replace (S i - 1) with i in R by lia. exact (proj1 R).
  - right. right. right. exists i, r. exact G3.
  - left. exists (ch_at heads i), rs. exact G2.
Qed.

(* ---- findings ---- *)
(* The format counts 65536 ticks for a zero word. *)
Theorem C64_rollover_refuted : ~ (forall words times, flux_words 65536 words times -> flux_words 65535 words times).
Proof.
  intros H. assert (A : flux_words 65536 [0; 1]%N [65537]%N) by (exists [(1, 1%N)], 0; split; [reflexivity|split; [repeat constructor; discriminate|reflexivity]]).
  apply H in A. apply convert_words in A. vm_compute in A. discriminate.
Qed.
(* A file with a track missing in the table (entry 0): the tracks behind it are not loaded, without an error. *)
Definition gap_file : list N :=
  [0x53; 0x43; 0x50; 0x24; 0x30; 0; 0; 2; 0; 0; 0; 0; 0; 0; 0; 0;  28; 0; 0; 0;  0; 0; 0; 0;  32; 0; 0; 0;  0x54; 0x52; 0x4B; 0;  0x54; 0x52; 0x4B; 2]%N.
Theorem C64_missing_track_refuted : ~ (forall dec file d', scp_load_image dec di_default file = Ok d' ->
  forall i, (16 + 4 * N.of_nat i + 4 <= scp_entry file 0)%N -> scp_entry file i <> 0%N -> i < length (di_map0 d') + length (di_map1 d')).
Proof.
  intros H. specialize (H (fun _ _ => Ok []) gap_file). remember (scp_load_image (fun _ _ => Ok []) di_default gap_file) as o eqn:E. vm_compute in E. subst o.
  specialize (H _ eq_refl 2). cbn in H. assert (G : 2 < 1) by (apply H; discriminate). lia.
Qed.
Theorem C64_no_panic_refuted : ~ (forall dec file, (forall ch rs, dec ch rs <> Panic) -> scp_load_image dec di_default file <> Panic).
Proof.
  intros H. apply (H (fun _ _ => Ok []) [0x53; 0x43; 0x50; 0x24; 0x30; 1; 0; 0; 0; 0; 0; 0; 0; 0; 0; 0; 16; 0; 0; 0]%N); [discriminate|]. vm_compute. reflexivity.
Qed.

(* ---- an example: two tracks with one revolution each ---- *)
Definition ex_scp : list N :=
  [0x53; 0x43; 0x50; 0x24; 0x30; 1; 0; 1; 0; 0; 0; 1; 0; 0; 0; 0;  24; 0; 0; 0;  46; 0; 0; 0;
   0x54; 0x52; 0x4B; 0;  16; 0; 0; 0;  3; 0; 0; 0;  16; 0; 0; 0;  0; 80; 0; 0; 0; 7;
   0x54; 0x52; 0x4B; 1;  32; 0; 0; 0;  1; 0; 0; 0;  16; 0; 0; 0;  1; 0]%N.
Lemma ex_scp_file : scp_file ex_scp 2 2 1.
Proof.
  constructor; try reflexivity.
  - cbn. auto 10.
  - left. split; reflexivity.
  - lia.
  - split; [vm_compute; discriminate|vm_compute; discriminate].
  - intros [|i] Hi; [split; reflexivity|lia].
  - vm_compute. discriminate.
  - intros [|[|i]] Hi; [| |lia]; (constructor; [vm_compute; lia|reflexivity|]; intros [|r] Hr; [|lia]; split; [reflexivity|]; intros _; vm_compute; discriminate).
Qed.
Example C64_example : scp_revolutions 65535 ex_scp 1 0 [([4000; 3277100]%N, 400%N)] /\ scp_revolutions 65535 ex_scp 1 1 [([12800]%N, 800%N)] /\
  exists d', scp_load_image (fun _ _ => Ok []) di_default ex_scp = Ok d' /\ di_geom d' = mkCh 1 2.
Proof.
  split; [|split].
  - pose proof (revs_spec ex_scp 1 0) as H. vm_compute map in H. exact H.
  - pose proof (revs_spec ex_scp 1 1) as H. vm_compute map in H. exact H.
  - eexists. split; vm_compute; reflexivity.
Qed.

Print Assumptions C64_load.
Print Assumptions C64_words.
Print Assumptions C64_only.
Print Assumptions C64_panics.
Print Assumptions C64_rollover_refuted.
Print Assumptions C64_missing_track_refuted.
Print Assumptions C64_no_panic_refuted.
