(* Format_props.v - C28 format tables, C29 BIOS parameter block, C46 formatting an image, C47 the volume described by
   the parameter block, C48 format names. *)
From Coq Require Import String List.
From Verif Require Import Base Base_lemmas Chs_model BitRing_model Mfm_model Types_model System34_model MetaSector_model BitStream_model
  DiskImage_model DiskImage_spec DiskImage_proofs Format_model Format_spec Format_proofs Format2_proofs Format3_proofs.
Import ListNotations.
Local Open Scope N_scope.

(* ================================================================ C28 ================ *)
Theorem C28_size_is_geometry : forall f, let g := sf_layout f in
  sf_disk_size f = l_c g * l_h g * l_s g * l_size g /\ l_size g = 512 /\
  sf_bitcell_ct f = 2 * sf_rate f * 60 / sf_rpm f.
Proof. intros f g. destruct f; vm_compute; repeat split; reflexivity. Qed.
(* A format identified from a size or from a geometry has that size or geometry. *)
Theorem C28_size_sound : forall n f, sf_of_size n = Some f -> sf_disk_size f = n.
Proof.
  intros n f H. unfold sf_of_size in H.
  repeat match type of H with context [n =? ?x] => destruct (N.eqb_spec n x) as [->|_]; [injection H as <-; reflexivity|] end. discriminate.
Qed.
Theorem C28_chs_sound : forall x f, sf_of_chs x = Some f -> sf_chs f = x.
Proof.
  intros [c h s] f H. unfold sf_of_chs in H. cbn [chs_c chs_h chs_s] in H.
  repeat match type of H with context [(c =? ?a) && (h =? ?b) && (s =? ?d)] =>
    destruct ((c =? a) && (h =? b) && (s =? d)) eqn:E;
      [apply andb_prop in E as [E E3]; apply andb_prop in E as [E1 E2]; apply N.eqb_eq in E1, E2, E3; subst; injection H as <-; reflexivity|clear E] end.
  discriminate.
Qed.
Theorem C28_roundtrip : forall f, f <> AmigaFloppy1760 -> sf_of_size (sf_disk_size f) = Some f /\ sf_of_chs (sf_chs f) = Some f.
Proof. intros f H. destruct f; try congruence; split; vm_compute; reflexivity. Qed.
Theorem C28_roundtrip_1760_refuted : sf_of_size (sf_disk_size AmigaFloppy1760) = None /\ sf_of_chs (sf_chs AmigaFloppy1760) = None.
Proof. split; vm_compute; reflexivity. Qed.
Example C28_ex : sf_of_size 1474560 = Some PcFloppy1440 /\ sf_of_chs (mkChs 80 2 18) = Some PcFloppy1440 /\ sf_of_size 1474561 = None.
Proof. repeat split; vm_compute; reflexivity. Qed.

(* ================================================================ C29 ================ *)
(* Updating a boot sector parsed from any buffer of at least 512 bytes changes only bytes 0x0B .. 0x1F, and the result
   parses to the parameter block of the format, is accepted as valid, and identifies the format. *)
Theorem C29_update : forall buf b f, is_pc f -> boot_new buf = Ok b ->
  exists b', boot_update b f = Ok b' /\ same_outside 0x0B 0x20 (firstn 512 buf) (bs_buf b') /\ describes (bs_buf b') f.
Proof.
  intros buf b f Hf Hb. destruct (boot_new_inv _ _ Hb) as (Hl & _ & _ & E & L). destruct (pc_bpb f Hf) as (x & y & Hx & Hy & _ & _).
  unfold boot_update. rewrite Hx, Hy. cbn [obind]. eexists. split; [reflexivity|]. cbn [bs_buf]. rewrite <- E.
  split; [|apply spliced_describes; auto; lia]. destruct (splice_bpb (bs_buf b) x y ltac:(lia)) as (A & _ & _ & D). split; [exact A|exact D].
Qed.
(* writing it into any other buffer of at least 512 bytes does the same there *)
Theorem C29_write : forall buf b f target, is_pc f -> boot_new buf = Ok b -> (512 <= length target)%nat ->
  exists b', boot_update b f = Ok b' /\ same_outside 0x0B 0x20 target (boot_write_bpb b' target) /\ describes (boot_write_bpb b' target) f.
Proof.
  intros buf b f target Hf Hb Ht. destruct (pc_bpb f Hf) as (x & y & Hx & Hy & _ & _).
  unfold boot_update. rewrite Hx, Hy. cbn [obind]. eexists. split; [reflexivity|]. unfold boot_write_bpb. cbn [bs_bpb2 bs_bpb3].
  split; [|apply spliced_describes; auto]. destruct (splice_bpb target x y ltac:(lia)) as (A & _ & _ & D). split; [exact A|exact D].
Qed.
(* Parsing any boot sector and writing the parsed block back gives the same bytes. *)
Theorem C29_parse_write_identity : forall buf b, bytes_ok buf = true -> boot_new buf = Ok b -> boot_write_bpb b buf = buf.
Proof.
  intros buf b Hb H. destruct (boot_new_inv _ _ H) as (Hl & E2 & E3 & _ & _). unfold boot_write_bpb. rewrite E2, E3.
  rewrite bpb2_rewrite, bpb3_rewrite; try (apply slice_length; unfold BPB_OFFSET; lia); try (apply bytes_ok_slice; exact Hb).
  assert (E : slice buf BPB_OFFSET 13 ++ slice buf (BPB_OFFSET + 13) 8 = slice buf BPB_OFFSET 21).
  { apply list_eq_nth_error. intros i. destruct (Nat.lt_ge_cases i 13) as [Hi|Hi].
    - rewrite nth_error_app1 by (rewrite slice_length; unfold BPB_OFFSET; lia). unfold slice. rewrite !nth_error_firstn.
      destruct (Nat.ltb_spec i 13); [|lia]. destruct (Nat.ltb_spec i 21); [reflexivity|lia].
    - rewrite nth_error_app2 by (rewrite slice_length; unfold BPB_OFFSET; lia). rewrite slice_length by (unfold BPB_OFFSET; lia).
      unfold slice. rewrite !nth_error_firstn, !nth_error_skipn. destruct (Nat.ltb_spec (i - 13) 8); destruct (Nat.ltb_spec i 21); try lia; [|reflexivity].
      f_equal. lia. }
  rewrite E. apply list_eq_nth_error. intros i. rewrite nth_error_splice by (rewrite slice_length; unfold BPB_OFFSET; lia).
  rewrite slice_length by (unfold BPB_OFFSET; lia).
  destruct ((BPB_OFFSET <=? i) && (i <? BPB_OFFSET + 21))%nat eqn:Ei; [|reflexivity].
  apply andb_prop in Ei as [A B]. apply Nat.leb_le in A. apply Nat.ltb_lt in B. unfold slice. rewrite nth_error_firstn, nth_error_skipn.
  destruct (Nat.ltb_spec (i - BPB_OFFSET) 21); [|lia]. f_equal. lia.
Qed.
Theorem C29_amiga : forall b, boot_update b AmigaFloppy880 = Err UnsupportedFormat /\ boot_update b AmigaFloppy1760 = Err UnsupportedFormat.
Proof. intros b. split; reflexivity. Qed.
Theorem C29_short_buffer : forall buf, (length buf < 512)%nat -> boot_new buf = Err IoError.
Proof. intros buf H. unfold boot_new. destruct (Nat.ltb_spec (length buf) 512); [reflexivity|lia]. Qed.
Example C29_ex : exists b, boot_new DEFAULT_BOOT_SECTOR = Ok b /\ boot_has_valid_bpb b = false /\ signature_valid (bs_marker b) = true /\
  exists b', boot_update b PcFloppy720 = Ok b' /\ slice (bs_buf b') 0x13 2 = [0xA0; 0x05] /\ bs_buf b' <> bs_buf b.
Proof. eexists. split; [reflexivity|]. split; [vm_compute; reflexivity|]. split; [vm_compute; reflexivity|]. eexists. split; [reflexivity|]. split; vm_compute; [reflexivity|discriminate]. Qed.

(* ================================================================ C46 ================ *)
Theorem C46_format : forall rnd d f boot creator, is_pc f -> (di_res d = [] \/ di_res d = [RBitStream]) ->
  (512 <= length (boot_of boot))%nat -> bytes_ok (boot_of boot) = true -> accepts_creator (boot_of boot) creator ->
  exists d' B, di_format rnd d f RBitStream Fat12 boot creator = (d', Ok tt) /\
    boot_for (boot_of boot) f creator B /\ disk_reads d' f (fresh_content B) /\ clean_analysis f d' /\
    (forall rnd', read_boot_sector rnd' d' = Ok B).
Proof. exact format_theorem. Qed.
Example C46_ex : is_pc PcFloppy360 /\ (512 <= length (boot_of None))%nat /\ bytes_ok (boot_of None) = true /\
  accepts_creator (boot_of None) (Some [0x54; 0x45; 0x53; 0x54; 0x45; 0x52; 0x20; 0x20]) /\ accepts_creator (boot_of None) None /\
  boot_of None <> fresh_content (boot_of None) 1 0 1.
Proof. split; [split; discriminate|]. vm_compute. repeat split; try reflexivity; try (repeat constructor); discriminate. Qed.
(* a creator string is refused if the template has none to replace *)
Theorem C46_creator_refused : forall rnd d f res boot c, is_pc f -> (512 <= length boot)%nat -> slice boot 0x147 8 <> FLUXFOX_CREATOR ->
  snd (di_format rnd d f res Fat12 (Some boot) (Some c)) = Err IncompatibleImage.
Proof. exact creator_refused. Qed.
Theorem C46_fat16 : forall rnd d f res boot creator, di_format rnd d f res Fat16 boot creator = (d, Err UnsupportedFilesystem).
Proof. reflexivity. Qed.
(* A format that fails has already discarded the disk: an Amiga format (whatever the image), a boot template shorter
   than a sector, or an image whose tracks are not bitstreams. *)
Theorem C46_failed_format_wipes_refuted : forall rnd d res boot creator,
  (forall f, ~ is_pc f -> (512 <= length (boot_of boot))%nat -> di_format rnd d f res Fat12 boot creator = (reset_image d, Err UnsupportedFormat)) /\
  (forall f, (length (boot_of boot) < 512)%nat -> di_format rnd d f res Fat12 boot creator = (reset_image d, Err IoError)) /\
  (forall f, is_pc f -> (512 <= length (boot_of boot))%nat -> accepts_creator (boot_of boot) creator -> di_res d = [RMetaSector] \/ di_res d = [RFluxStream] ->
     exists e, di_format rnd d f RBitStream Fat12 boot creator = (reset_image d, Err e)) /\
  forall ch, di_track (reset_image d) ch <> Panic -> di_track (reset_image d) ch = Ok None.
Proof. exact failed_format. Qed.
(* the geometry reported by the image is not the one of the format *)
Theorem C46_geometry_refuted : forall rnd d f boot creator d', is_pc f -> (di_res d = [] \/ di_res d = [RBitStream]) ->
  (512 <= length (boot_of boot))%nat -> bytes_ok (boot_of boot) = true -> accepts_creator (boot_of boot) creator ->
  di_format rnd d f RBitStream Fat12 boot creator = (d', Ok tt) -> di_geom d' = di_geom d.
Proof. exact format_geometry. Qed.

(* ================================================================ C47 ================ *)
Theorem C47_volume : forall f x y, bpb2_of f = Ok x -> bpb3_of f = Ok y ->
  b2_bytes_per_sector x = l_size (sf_layout f) /\ b2_total_sectors x * b2_bytes_per_sector x = sf_disk_size f /\
  b3_sectors_per_track y = l_s (sf_layout f) /\ b3_number_of_heads y = l_h (sf_layout f) /\ b3_hidden_sectors y = 0 /\
  (f <> PcFloppy2880 -> fat_fits x /\ is_fat12 x /\ 0 < clusters x).
Proof. intros f x y Hx Hy. destruct f; try discriminate; injection Hx as <-; injection Hy as <-; vm_compute; repeat split; try reflexivity; try discriminate; congruence. Qed.
(* The 2.88 MB volume has more clusters than its FATs have entries for, and too many for FAT12. *)
Theorem C47_2880_refuted : exists x, bpb2_of PcFloppy2880 = Ok x /\ ~ fat_fits x /\ ~ is_fat12 x.
Proof. eexists. split; [reflexivity|]. split; vm_compute; intros H; try discriminate H; apply H; reflexivity. Qed.
(* The 180K and 720K formats are given the media descriptor of another format. *)
Theorem C47_media_refuted : (exists x, bpb2_of PcFloppy180 = Ok x /\ Some (b2_media_descriptor x) <> standard_media PcFloppy180) /\
  (exists x, bpb2_of PcFloppy720 = Ok x /\ Some (b2_media_descriptor x) <> standard_media PcFloppy720) /\
  forall f x, bpb2_of f = Ok x -> f <> PcFloppy180 -> f <> PcFloppy720 -> Some (b2_media_descriptor x) = standard_media f.
Proof.
  split; [eexists; split; [reflexivity|vm_compute; discriminate]|]. split; [eexists; split; [reflexivity|vm_compute; discriminate]|].
  intros f x H A B. destruct f; try congruence; cbn [bpb2_of] in H; try discriminate; injection H as <-; reflexivity.
Qed.
Example C47_ex : exists x, bpb2_of PcFloppy1440 = Ok x /\ clusters x = 2847.
Proof. eexists. split; [reflexivity|]. vm_compute. reflexivity. Qed.

(* ================================================================ C48 ================ *)
Local Open Scope string_scope.
(* A string names a format exactly if it is, up to letter case, the short name of the format, or "pc_" and the short name. *)
Theorem C48_names : forall s f, sf_from_str s = Some f <-> same_text s (short_name f) \/ same_text s ("pc_" ++ short_name f).
Proof.
  intros s f. rewrite from_short, strip_pc_eq.
  assert (Hl : to_lowercase (short_name f) = short_name f) by (destruct f; reflexivity).
  assert (Hp : to_lowercase ("pc_" ++ short_name f) = "pc_" ++ short_name f) by (destruct f; reflexivity).
  rewrite <- !lower_text, Hl, Hp. split.
  - intros [H|[H _]]; [right; exact H|left; exact H].
  - intros [H|H]; [right; split; [exact H|]|left; exact H]. rewrite H. destruct f; intros t E; discriminate E.
Qed.
(* so the displayed name of a format parses to it *)
Theorem C48_display_parse : forall s f, same_text s (sf_to_str f) -> sf_from_str s = Some f.
Proof. intros s f H. apply C48_names. destruct f; (left; exact H) || (right; exact H). Qed.
Theorem C48_list : forall s f, In (s, f) sf_list -> s = sf_to_str f /\ sf_from_str s = Some f.
Proof. intros s f H. repeat (destruct H as [H|H]; [inversion H; subst; split; reflexivity|]). destruct H. Qed.
Theorem C48_list_complete_refuted : forall s, ~ In (s, AmigaFloppy1760) sf_list.
Proof. intros s H. repeat (destruct H as [H|H]; [discriminate H|]). destruct H. Qed.
Theorem C48_prefix_refuted : sf_from_str "pc_amiga_880k" = Some AmigaFloppy880.
Proof. reflexivity. Qed.
Example C48_ex : sf_from_str "PC_1440K" = Some PcFloppy1440 /\ sf_from_str "720k" = Some PcFloppy720 /\ sf_from_str "1441k" = None /\ same_text "Pc_360K" (sf_to_str PcFloppy360).
Proof. repeat split; try reflexivity. apply lower_text. reflexivity. Qed.

Print Assumptions C28_size_is_geometry.
Print Assumptions C28_size_sound.
Print Assumptions C28_chs_sound.
Print Assumptions C28_roundtrip.
Print Assumptions C28_roundtrip_1760_refuted.
Print Assumptions C29_update.
Print Assumptions C29_write.
Print Assumptions C29_parse_write_identity.
Print Assumptions C29_amiga.
Print Assumptions C29_short_buffer.
Print Assumptions C46_format.
Print Assumptions C46_creator_refused.
Print Assumptions C46_fat16.
Print Assumptions C46_failed_format_wipes_refuted.
Print Assumptions C46_geometry_refuted.
Print Assumptions C47_volume.
Print Assumptions C47_2880_refuted.
Print Assumptions C47_media_refuted.
Print Assumptions C48_names.
Print Assumptions C48_display_parse.
Print Assumptions C48_list.
Print Assumptions C48_list_complete_refuted.
Print Assumptions C48_prefix_refuted.
