(* Raw_props.v - property C21: raw sector images.  Specification: Raw_spec.v, SectorView_spec.v.  sha1 is SHA-1. *)
From Coq Require Import List.
From Verif Require Import Base Base_lemmas Chs_model BitRing_model Mfm_model Types_model BitStream_model DiskImage_model DiskImage_proofs Format_model Format_spec Format2_proofs
  SectorView_model SectorView_spec SectorView_proofs SectorView2_proofs Raw_model Raw_spec Raw_proofs Raw2_proofs Raw3_proofs Raw4_proofs Raw5_proofs.
Import ListNotations.

(* The assumption on SHA-1: for 80-cylinder formats. *)
Definition no_collision (sha1 : list N -> N) (rnd : Rnd) (f : StandardFormat) (img : list N) : Prop :=
  l_c (sf_layout f) = 80%N -> forall d, raw_load_image rnd di_default img = Ok d -> some_pair_told_apart sha1 d.
(* "An image of the size of a standard PC format loads as a disk of this format that holds the image: every sector reads
   as its bytes.  The disk is a sector store, so C22 and C23 hold of it." *)
Theorem C21_load : forall sha1 rnd f img, is_pc f -> N.of_nat (length img) = sf_disk_size f -> bytes_ok img = true -> no_collision sha1 rnd f img ->
  exists d boot, raw_load sha1 rnd img = Ok (d, boot) /\ holds d f img /\ clean_analysis f d /\ exists P, sector_store f P /\ P d img.
Proof.
  intros sha1 rnd f img Hf Hl Hb Hn. destruct (load_pc sha1 rnd f img Hf Hl Hb Hn) as (d & E & (Hst & _) & Hc).
  exists d, (boot_field (firstn 512 img)). split; [exact E|]. split; [apply (fmt_is_store f d img Hst)|]. split; [exact Hc|]. exists (fmt_store f). split; [apply fmt_is_store|exact Hst].
Qed.
(* "After any sector writes, saving yields the image with exactly the written sectors replaced.  The boot sector of the
   image names no standard format or the right one." *)
Theorem C21_edit : forall sha1 rnd rnd' f img ws, is_pc f -> N.of_nat (length img) = sf_disk_size f -> bytes_ok img = true -> no_collision sha1 rnd f img ->
  names_format (firstn 512 img) = None \/ names_format (firstn 512 img) = Some f -> Forall (write_ok f) ws ->
  exists d boot d', raw_load sha1 rnd img = Ok (d, boot) /\ write_sectors ws d = Some d' /\ raw_save rnd' d' boot = Ok (write_flat f ws img).
Proof.
  intros sha1 rnd rnd' f img ws Hf Hl Hb Hn Hnm Hw. destruct (load_pc sha1 rnd f img Hf Hl Hb Hn) as (d & E & Hs & _).
  destruct (writes_saveable f ws d img Hs Hw) as (d' & E' & Hs'). exists d, (boot_field (firstn 512 img)), d'. split; [exact E|]. split; [exact E'|].
  apply (save_pc rnd' f d' _ _ Hf); [apply (fmt_is_store f), Hs'|]. apply (consistency f d' _ Hs'). rewrite names_boot in Hnm. exact Hnm.
Qed.
(* "Loading and saving an image of a PC format yields the same bytes." *)
Theorem C21_round_trip : forall sha1 rnd rnd' f img, is_pc f -> N.of_nat (length img) = sf_disk_size f -> bytes_ok img = true -> no_collision sha1 rnd f img ->
  names_format (firstn 512 img) = None \/ names_format (firstn 512 img) = Some f ->
  exists d boot, raw_load sha1 rnd img = Ok (d, boot) /\ raw_save rnd' d boot = Ok img.
Proof.
  intros sha1 rnd rnd' f img Hf Hl Hb Hn Hnm. destruct (C21_edit sha1 rnd rnd' f img [] Hf Hl Hb Hn Hnm (Forall_nil _)) as (d & boot & d' & E & E' & Es).
  injection E' as <-. exists d, boot. auto.
Qed.
(* The exception: an image whose boot sector names another standard format never saves as itself; what is saved, if
   anything, has the size of the format named. *)
Theorem C21_wrong_bpb_refuted : forall sha1 rnd rnd' f f' img, is_pc f -> N.of_nat (length img) = sf_disk_size f -> bytes_ok img = true -> no_collision sha1 rnd f img ->
  names_format (firstn 512 img) = Some f' -> f' <> f ->
  exists d boot, raw_load sha1 rnd img = Ok (d, boot) /\ forall out, raw_save rnd' d boot = Ok out -> N.of_nat (length out) = sf_disk_size f' /\ out <> img.
Proof.
  intros sha1 rnd rnd' f f' img Hf Hl Hb Hn Hnm Hne. destruct (load_pc sha1 rnd f img Hf Hl Hb Hn) as (d & E & Hs & _).
  exists d, (boot_field (firstn 512 img)). split; [exact E|]. intros out Ho. rewrite names_boot in Hnm. destruct (boot_field (firstn 512 img)) as [b|]; [|discriminate].
  apply save_length in Ho as (g & Eg & Hlg). rewrite (trusts_bpb d b f' Hnm) in Eg. injection Eg as <-. split; [exact Hlg|]. intros ->.
  rewrite Hl in Hlg. destruct f, f'; try congruence; try discriminate Hlg; destruct Hf; congruence.
Qed.
(* "Sizes other than those of the PC formats and of 880K Amiga disks are refused." *)
Theorem C21_sizes : forall sha1 rnd img, (forall f, f <> AmigaFloppy1760 -> N.of_nat (length img) <> sf_disk_size f) -> raw_load sha1 rnd img = Err UnknownFormat.
Proof.
  intros sha1 rnd img H. unfold raw_load, raw_load_image. destruct (sf_of_size (N.of_nat (length img))) as [f|] eqn:E; [|reflexivity].
  apply size_format in E as [E1 E2]. exfalso. exact (H f E2 E1).
Qed.
(* A finding: 1760K Amiga images, although listed as a standard format, are refused. *)
Theorem C21_amiga_hd_refuted : forall sha1 rnd img, N.of_nat (length img) = sf_disk_size AmigaFloppy1760 -> raw_load sha1 rnd img = Err UnknownFormat.
Proof. intros sha1 rnd img H. apply C21_sizes. intros f Hf E. rewrite H in E. destruct f; try discriminate E. congruence. Qed.

(* ---- Amiga 880K (ADF) ---- *)
Definition adf_write_ok (w : N * N * N * list N) : Prop := let '(c, h, s, data) := w in (c < 80 /\ h < 2 /\ s < 11)%N /\ length data = 512.
Definition adf_flat (ws : list (N * N * N * list N)) (flat : list N) : list N :=
  fold_left (fun flat '(c, h, s, data) => splice flat (N.to_nat (((2 * c + h) * 11 + s) * 512)) data) ws flat.
(* "Loading, writing sectors and saving an 880K Amiga image yields the image with exactly the written sectors replaced,
   if the tracks of some pair of cylinders 2k, 2k+1 of head 0 differ (in SHA-1) and the second sector names no PC format." *)
Theorem C21_amiga : forall sha1 rnd rnd' img ws, N.of_nat (length img) = sf_disk_size AmigaFloppy880 -> bytes_ok img = true ->
  (exists k, (k < 40)%N /\ sha1 (adf_track img (2 * k) 0) <> sha1 (adf_track img (2 * k + 1) 0)) -> names_format (slice img 512 512) = None -> Forall adf_write_ok ws ->
  exists d boot d', raw_load sha1 rnd img = Ok (d, boot) /\
    (forall c h s rnd, (c < 80 /\ h < 2 /\ s < 11)%N -> di_read_sector_basic rnd d (mkCh c h) (sector_query c h s) None = Ok (sector_at img ((2 * c + h) * 11 + s))) /\
    write_sectors ws d = Some d' /\ raw_save rnd' d' boot = Ok (adf_flat ws img).
Proof.
  intros sha1 rnd rnd' img ws Hl Hb Hk Hn Hw. destruct (adf_kept sha1 rnd img Hl Hb Hk) as (d & E & Hs).
  assert (X : forall ws d img, adf_state d img -> Forall adf_write_ok ws -> exists d', write_sectors ws d = Some d' /\ adf_state d' (adf_flat ws img)).
  { clear. induction ws as [|[[[c h] s] data] ws IH]; intros d img Hs Hw; [exists d; auto|]. inversion Hw as [|? ? Hwo Hw']; subst. destruct Hwo as ((A & B & C) & D).
    destruct (adf_write_disk d img c h s data Hs A B C D) as (d1 & E1 & S1). destruct (IH d1 _ S1 Hw') as (d2 & E2 & S2). exists d2.
    cbn [write_sectors adf_flat fold_left]. rewrite E1. split; [exact E2|exact S2]. }
  destruct (X ws d img Hs Hw) as (d' & E' & Hs'). exists d, (boot_field (slice img 512 512)), d'. split; [exact E|]. split; [|split; [exact E'|]].
  - intros c h s r (A & B & C). apply (adf_read_disk r d img c h s); auto. apply Hs.
  - apply save_adf; [apply Hs'|apply Hs'|]. apply (adf_closest d' _ _ true Hs'). rewrite names_field. exact Hn.
Qed.
(* A finding: an 880K image in which all pairs of cylinders 2k, 2k+1 of head 0 are alike (a blank disk, say) loads as a
   40 cylinder disk; its cylinders 40 to 79 cannot be read, and it cannot be saved. *)
Theorem C21_blank_amiga_refuted : forall sha1 rnd rnd' img, N.of_nat (length img) = sf_disk_size AmigaFloppy880 -> bytes_ok img = true ->
  (forall k, (k < 40)%N -> adf_track img (2 * k) 0 = adf_track img (2 * k + 1) 0) -> names_format (slice img 512 512) = None ->
  exists d boot, raw_load sha1 rnd img = Ok (d, boot) /\ raw_save rnd' d boot = Err UnsupportedFormat /\
    forall c h q, (40 <= c)%N -> di_read_sector_basic rnd' d (mkCh c h) q None = Err SeekError.
Proof.
  intros sha1 rnd rnd' img Hl Hb Hk Hn. destruct (adf_halved sha1 rnd img Hl Hb) as (d & E & Hs); [intros k Hkk; rewrite (Hk k Hkk); reflexivity|].
  exists d, (boot_field (slice img 512 512)). split; [exact E|]. split.
  - unfold raw_save. rewrite (half_closest d img _ true Hs); [reflexivity|]. rewrite names_field. exact Hn.
  - intros c h q Hc. unfold di_read_sector_basic. rewrite (wf_seek_none d _ (mkCh c h) (proj1 Hs)); [reflexivity|]. cbn [ch_c ch_h].
    rewrite side_tab by auto. destruct (N.ltb_spec c 40); [lia|]. reflexivity.
Qed.

(* ---- the hypotheses can be met ---- *)
(* an injective "hash": base 257 *)
Definition code (l : list N) : N := fold_right (fun b a => b + 1 + 257 * a)%N 0%N l.
Lemma code_inj : forall a b, bytes_ok a = true -> bytes_ok b = true -> code a = code b -> a = b.
Proof.
  induction a as [|x a IH]; intros [|y b] Ha Hb E; cbn [code fold_right] in E; [reflexivity|lia|lia|].
  unfold bytes_ok in Ha, Hb. cbn [forallb] in Ha, Hb. apply andb_prop in Ha as [X Ha]. apply andb_prop in Hb as [Y Hb]. apply N.ltb_lt in X, Y.
  fold (code a) (code b) in E. assert (x = y /\ code a = code b) as [-> Ec] by (clear - E X Y; lia). f_equal. apply IH; auto.
Qed.
Lemma pack_bytes : forall l, bytes_ok (pack l) = true.
Proof.
  intros l. unfold bytes_ok, pack. apply forallb_forall. intros b Hb. apply in_map_iff in Hb as (i & <- & _). apply N.ltb_lt.
  match goal with |- (bits_val ?m < _)%N => pose proof (bits_val_lt m) as H end. rewrite map_length, seq_length in H. exact H.
Qed.
Lemma pc_tracks : forall rnd f img d, is_pc f -> N.of_nat (length img) = sf_disk_size f -> bytes_ok img = true -> raw_load_image rnd di_default img = Ok d ->
  forall c, (c < l_c (sf_layout f))%N -> exists b, head0 d c = Some (TBit b).
Proof.
  intros rnd f img d Hf Hl Hb E c Hc. destruct (load_bitstream rnd f img Hf Hl Hb) as (d' & F & E' & _ & W & HF). rewrite E in E'. injection E' as <-.
  destruct (layout_facts f Hf) as (_ & _ & _ & _ & Hh & _). destruct (HF 0%N c Hh Hc) as (b & Eb & _). exists b. rewrite (head0_tab d F _ _ c W Hc), Eb. reflexivity.
Qed.
Lemma code_no_collision : forall rnd f img, is_pc f -> N.of_nat (length img) = sf_disk_size f -> bytes_ok img = true -> no_collision code rnd f img.
Proof.
  intros rnd f img Hf Hl Hb C d E. destruct (pc_tracks rnd f img d Hf Hl Hb E 0%N ltac:(lia)) as (a & Ha). destruct (pc_tracks rnd f img d Hf Hl Hb E 1%N ltac:(lia)) as (b & Hb1).
  exists 0%N, a, b. split; [lia|]. split; [exact Ha|]. split; [exact Hb1|]. intros Hne Hc. apply Hne. apply code_inj; [apply pack_bytes|apply pack_bytes|exact Hc].
Qed.
Definition blank_image (n : N) : list N := repeat 0%N (N.to_nat n).
Lemma blank_bytes : forall n, bytes_ok (blank_image n) = true.
Proof. intros n. unfold bytes_ok, blank_image. apply forallb_forall. intros x Hx. apply repeat_spec in Hx. subst x. reflexivity. Qed.
Lemma blank_slice : forall n o k, o + k <= N.to_nat n -> slice (blank_image n) o k = repeat 0%N k.
Proof.
  intros n o k H. apply list_eq_nth_error. intros j. rewrite nth_slice_gen. unfold blank_image.
  assert (R : forall m i, nth_error (repeat 0%N m) i = if i <? m then Some 0%N else None).
  { induction m as [|m IH]; intros [|i]; cbn [repeat nth_error]; try reflexivity. rewrite IH. reflexivity. }
  rewrite !R. destruct (Nat.ltb_spec j k); [|reflexivity]. destruct (Nat.ltb_spec (o + j) (N.to_nat n)); [reflexivity|lia].
Qed.
Lemma blank_names : names_format (repeat 0%N 512) = None. Proof. vm_compute. reflexivity. Qed.
Lemma blank_first : forall n, (512 <= n)%N -> names_format (firstn 512 (blank_image n)) = None.
Proof. intros n H. change (firstn 512 (blank_image n)) with (slice (blank_image n) 0 512). rewrite blank_slice by lia. exact blank_names. Qed.
(* a blank 1.44M image, with one sector written: the hypotheses of C21_load, C21_edit and C21_round_trip *)
Example C21_pc_ex : let f := PcFloppy1440 in let img := blank_image 1474560 in
  is_pc f /\ N.of_nat (length img) = sf_disk_size f /\ bytes_ok img = true /\ (forall rnd, no_collision code rnd f img) /\
  names_format (firstn 512 img) = None /\ Forall (write_ok f) [(79, 1, 18, repeat 255 512)%N].
Proof.
  set (img := blank_image 1474560). cbv zeta. assert (L : N.of_nat (length img) = sf_disk_size PcFloppy1440) by (unfold img, blank_image; rewrite repeat_length, N2Nat.id; reflexivity).
  assert (F : is_pc PcFloppy1440) by (split; discriminate). assert (B : bytes_ok img = true) by apply blank_bytes.
  split; [exact F|]. split; [exact L|]. split; [exact B|]. split; [intros rnd; apply code_no_collision; auto|]. split; [apply blank_first; lia|].
  constructor; [|constructor]. split; [vm_compute; repeat split; discriminate|]. split; [apply repeat_length|]. vm_compute. reflexivity.
Qed.
(* a 160K image with the boot sector of a 320K disk *)
Definition boot_160 : list N := repeat 0%N 11 ++ [0; 2; 2; 1; 0; 2; 112; 0; 128; 2; 255; 1; 0]%N ++ repeat 0%N 488.
Example C21_wrong_bpb_ex : let img := boot_160 ++ blank_image 163328 in
  N.of_nat (length img) = sf_disk_size PcFloppy160 /\ bytes_ok img = true /\ names_format (firstn 512 img) = Some PcFloppy320 /\ PcFloppy320 <> PcFloppy160.
Proof.
  cbv zeta. assert (L : length boot_160 = 512) by reflexivity. split; [|split; [|split; [|discriminate]]].
  - rewrite app_length, L. unfold blank_image. rewrite repeat_length. reflexivity.
  - rewrite bytes_ok_app, blank_bytes. vm_compute. reflexivity.
  - rewrite firstn_app, L, Nat.sub_diag, firstn_O, app_nil_r. rewrite <- L, firstn_all. vm_compute. reflexivity.
Qed.
Lemma bytes_cons : forall x l, (x <? 256)%N = true -> bytes_ok l = true -> bytes_ok (x :: l) = true.
Proof. intros x l H1 H2. unfold bytes_ok in *. cbn [forallb]. unfold is_byte at 1. rewrite H1. exact H2. Qed.
(* an Amiga image that is blank but for its first byte *)
Example C21_amiga_ex : let img := 1%N :: blank_image 901119 in
  N.of_nat (length img) = sf_disk_size AmigaFloppy880 /\ bytes_ok img = true /\
  (exists k, (k < 40)%N /\ code (adf_track img (2 * k) 0) <> code (adf_track img (2 * k + 1) 0)) /\ names_format (slice img 512 512) = None.
Proof.
  cbv zeta. pose proof (blank_bytes 901119) as Hz. pose proof (fun o k => blank_slice 901119 o k) as Hs.
  assert (Hlz : N.of_nat (length (blank_image 901119)) = 901119%N) by (unfold blank_image; rewrite repeat_length, N2Nat.id; reflexivity).
  remember (blank_image 901119) as z eqn:Ez. clear Ez.
  assert (Hl : N.of_nat (length (1%N :: z)) = 901120%N) by (cbn [length]; lia). assert (Hb : bytes_ok (1%N :: z) = true) by (apply bytes_cons; [reflexivity|exact Hz]).
  split; [exact Hl|]. split; [exact Hb|]. split.
  - exists 0%N. split; [lia|]. intros E. apply code_inj in E; [|apply Format_proofs.bytes_ok_slice, Hb|apply Format_proofs.bytes_ok_slice, Hb].
    apply (f_equal (fun l => nth_error l 0)) in E. unfold adf_track in E. rewrite !nth_slice_gen in E. change (0 <? 11 * 512) with true in E. cbn iota in E.
    change (N.to_nat ((2 * (2 * 0) + 0) * 5632) + 0) with 0 in E. rewrite Nat.add_0_r in E.
    replace (N.to_nat ((2 * (2 * 0 + 1) + 0) * 5632)) with (S (22 * 512 - 1)) in E by lia. cbn [nth_error] in E.
    pose proof (Hs (22 * 512 - 1) 1 ltac:(lia)) as S. apply (f_equal (fun l => nth_error l 0)) in S. rewrite nth_slice_gen, Nat.add_0_r in S. cbn [repeat nth_error] in S.
    change (0 <? 1) with true in S. cbn iota in S. rewrite S in E. discriminate E.
  - replace (slice (1%N :: z) 512 512) with (slice z 511 512) by reflexivity. rewrite Hs by lia. exact blank_names.
Qed.
Example C21_blank_amiga_ex : let img := blank_image 901120 in
  N.of_nat (length img) = sf_disk_size AmigaFloppy880 /\ bytes_ok img = true /\
  (forall k, (k < 40)%N -> adf_track img (2 * k) 0 = adf_track img (2 * k + 1) 0) /\ names_format (slice img 512 512) = None.
Proof.
  set (img := blank_image 901120). cbv zeta. split; [unfold img, blank_image; rewrite repeat_length, N2Nat.id; reflexivity|]. split; [apply blank_bytes|]. split.
  - intros k Hk. unfold adf_track, img. rewrite !blank_slice by lia. reflexivity.
  - unfold img. rewrite blank_slice by lia. exact blank_names.
Qed.

Print Assumptions C21_load.
Print Assumptions C21_edit.
Print Assumptions C21_round_trip.
Print Assumptions C21_wrong_bpb_refuted.
Print Assumptions C21_sizes.
Print Assumptions C21_amiga_hd_refuted.
Print Assumptions C21_amiga.
Print Assumptions C21_blank_amiga_refuted.
