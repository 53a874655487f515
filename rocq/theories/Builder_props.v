(* Builder_props.v - property C78: images made by ImageBuilder.  Specification: Builder_spec.v, Format_spec.v,
   Raw_spec.v.  sha1 is SHA-1. *)
From Coq Require Import List.
From Verif Require Import Base Base_lemmas Chs_model BitRing_model Mfm_model Types_model BitStream_model DiskImage_model DiskImage_spec DiskImage_proofs Format_model Format_spec Format2_proofs Format3_proofs
  Format_proofs  SectorView_model SectorView_spec SectorView_proofs SectorView2_proofs Raw_model Raw_spec Raw_proofs Raw3_proofs Builder_model Builder_spec Builder_proofs.
Import ListNotations.

(* The assumption on SHA-1, for 80-cylinder formats as in C21: it tells the tracks of some pair of the formatted disk
   apart, if their cells differ. *)
Definition no_collision (sha1 : list N -> N) (rnd : Rnd) (f : StandardFormat) (creator : option (list N)) : Prop :=
  l_c (sf_layout f) = 80%N -> forall d, ib_bitstream_formatted rnd f Fat12 creator = Ok d -> some_pair_told_apart sha1 d.
(* the builder as a client sets it up *)
Definition configured (f : StandardFormat) (tag : option (list N)) : ImageBuilder :=
  let b := with_formatted (with_resolution (with_standard_format ib_new f) RBitStream) true in
  match tag with Some t => with_creator_tag b t | None => b end.
(* an 8-byte array *)
Definition is_tag (c : option (list N)) : Prop := match c with Some c => length c = 8 /\ bytes_ok c = true | None => True end.

Lemma default_accepts : forall c, is_tag c -> accepts_creator DEFAULT_BOOT_SECTOR c.
Proof. intros [c|] H; [|exact I]. destruct H as [L B]. split; [exact L|]. split; [exact B|]. vm_compute. reflexivity. Qed.

(* "Building a formatted image of a PC format succeeds: the image has the geometry of the format, every sector reads
   without error, the boot sector is the default boot sector with the parameter block of the format and the creator tag,
   all other sectors are zero, the stored analysis is clean, the parsed boot sector names the format, and saving as a raw
   image yields the boot sector followed by zero bytes, of the size of the format." *)
Theorem C78_formatted : forall sha1 rnd ib f, ib_res ib = Some RBitStream -> ib_format ib = Some f -> ib_formatted ib = true -> ib_fs ib = Some Fat12 ->
  is_pc f -> is_tag (ib_creator ib) -> no_collision sha1 rnd f (ib_creator ib) ->
  exists d boot B, ib_build sha1 rnd ib = Ok (d, Some boot) /\ di_geom d = mkCh (l_c (sf_layout f)) (l_h (sf_layout f)) /\
    boot_for DEFAULT_BOOT_SECTOR f (ib_creator ib) B /\ disk_reads d f (fresh_content B) /\ clean_analysis f d /\
    boot_new B = Ok boot /\ boot_standard_format boot = Some f /\
    forall rnd', raw_save rnd' d (Some boot) = Ok (B ++ repeat 0%N (N.to_nat (sf_disk_size f) - 512)).
Proof.
  intros sha1 rnd ib f Er Ef Efm Efs Hf Ht Hn.
  destruct (formatted_built rnd f (ib_creator ib) Hf (default_accepts _ Ht)) as (d0 & B & F & E0 & Bf & Bo & G0 & W & HF).
  assert (Lb : length B = 512) by apply Bf.
  destruct (post_formatted sha1 rnd f d0 F (fresh_flat f B) Hf (fresh_length f B Hf Lb) W G0 HF (fun Z => Hn Z d0 E0)) as (d & E & Hs & Hc).
  assert (E1 : sector_at (fresh_flat f B) 0 = B).
  { unfold sector_at, fresh_flat. change (N.to_nat (0 * 512)) with 0. unfold slice. cbn [skipn]. rewrite <- Lb at 1. rewrite firstn_app, Nat.sub_diag, firstn_all. apply app_nil_r. }
  rewrite E1 in E.
  destruct (describes_field f B) as (boot & Eb & Es); [apply Bf|]. rewrite Eb in E.
  pose proof Hs as ((_ & _ & F' & W' & HF') & _ & Hg).
  assert (Lm : N.of_nat (length (di_map0 d)) = l_c (sf_layout f)).
  { destruct W' as [_ [S0 _]]. rewrite (map_some_len _ _ _ S0). change (fst (tab F' (lc f) (lh f))) with (side (tab F' (lc f) (lh f)) 0).
    rewrite tab_side_length; [apply N2Nat.id|apply lh_12|destruct f; reflexivity]. }
  exists d, boot, B. split; [|split; [exact Hg|split; [exact Bf|split; [|split; [exact Hc|split; [|split; [exact Es|]]]]]]].
  - unfold ib_build. rewrite Er, Ef. unfold ib_build_bitstream. rewrite Efm, Efs, E0. cbn [obind]. rewrite E. cbn [obind fst]. rewrite Lm, N.eqb_refl. reflexivity.
  - assert (HF2 : forall h c, (h < lh f)%N -> (c < lc f)%N -> holds_track f (mkCh c h) (fresh_content B c h) (F' h c)).
    { intros h c A A'. destruct (HF' h c A A') as (x & Ex & Hx). exists x. split; [exact Ex|].
      refine (data_ext f _ _ _ x _ Hx). intros s Hss. apply (fresh_sector f B c h s Hf Lb). split; [exact A'|split; [exact A|exact Hss]]. }
    exact (fmt_disk_reads f d F' (fresh_content B) W' HF2).
  - unfold boot_field in Eb. destruct (boot_new B) as [x|e|]; congruence.
  - intros rnd'. change (B ++ repeat 0%N (N.to_nat (sf_disk_size f) - 512)) with (fresh_flat f B). apply (save_pc rnd' f d (fresh_flat f B) (Some boot) Hf); [apply (fmt_is_store f), Hs|].
    apply (consistency f d _ Hs). right. exact Es.
Qed.
(* "The creator tag is cut off or padded with spaces to 8 bytes, and lies at offset 0x147 of the saved image." *)
Theorem C78_creator_tag : forall sha1 rnd f tag, is_pc f -> bytes_ok tag = true -> no_collision sha1 rnd f (Some (creator_field tag)) ->
  exists d boot, ib_build sha1 rnd (configured f (Some tag)) = Ok (d, Some boot) /\
    forall rnd', exists out, raw_save rnd' d (Some boot) = Ok out /\ N.of_nat (length out) = sf_disk_size f /\ slice out 0x147 8 = creator_field tag.
Proof.
  intros sha1 rnd f tag Hf Hb Hn.
  assert (Et : ib_creator (configured f (Some tag)) = Some (creator_field tag)).
  { unfold configured, with_creator_tag, creator_field. cbn [ib_creator]. f_equal. rewrite firstn_app. 
    destruct (Nat.le_gt_cases (length tag) 8) as [L|L].
    - rewrite Nat.min_l by exact L. rewrite firstn_all, firstn_all2 by exact L. f_equal.
      assert (X : length tag = 0 \/ length tag = 1 \/ length tag = 2 \/ length tag = 3 \/ length tag = 4 \/ length tag = 5 \/ length tag = 6 \/ length tag = 7 \/ length tag = 8) by lia.
      repeat destruct X as [X|X]; rewrite ?X; reflexivity.
    - rewrite Nat.min_r by lia. replace (8 - length tag) with 0 by lia. reflexivity. }
  assert (Hl : length (creator_field tag) = 8) by (unfold creator_field; rewrite firstn_length, app_length, repeat_length; lia).
  assert (Hc : is_tag (ib_creator (configured f (Some tag)))).
  { rewrite Et. split; [exact Hl|]. unfold creator_field. refine (bytes_ok_slice _ 0 8 _). rewrite bytes_ok_app, Hb. reflexivity. }
  destruct (C78_formatted sha1 rnd (configured f (Some tag)) f eq_refl eq_refl eq_refl eq_refl Hf Hc) as (d & boot & B & E & _ & Bf & _ & _ & _ & _ & Es); [rewrite Et; exact Hn|].
  exists d, boot. split; [exact E|]. intros rnd'. exists (fresh_flat f B). split; [apply Es|]. destruct Bf as (Lb & _ & Cb & _).
  split; [apply (fresh_length f B Hf Lb)|]. rewrite <- (Cb _ Et). apply slice_ext. intros i Hi. unfold fresh_flat. apply nth_error_app1. clear - Hi Lb. lia.
Qed.
(* "Building an image that is not to be formatted yields a disk of blank tracks, for every standard format." *)
Theorem C78_blank : forall sha1 rnd ib f, ib_res ib = Some RBitStream -> ib_format ib = Some f -> ib_formatted ib = false \/ ib_fs ib = None ->
  exists d, ib_build sha1 rnd ib = Ok (d, None) /\ blank_disk d f.
Proof.
  intros sha1 rnd ib f Er Ef Hn. destruct (tracks_built f) as (d & _ & _ & E & _). destruct (tracks_blank f d E) as [Hd Hl].
  exists d. split; [|exact Hd]. unfold ib_build. rewrite Er, Ef. unfold ib_build_bitstream.
  assert (X : match ib_formatted ib, ib_fs ib with
              | true, Some fs => let! d := ib_bitstream_formatted rnd f fs (ib_creator ib) in post_load_process sha1 rnd d
              | _, _ => let! d := ib_tracks f in Ok (d, None) end = Ok (d, None)).
  { destruct Hn as [-> | ->]; [|destruct (ib_formatted ib)]; rewrite E; reflexivity. }
  rewrite X. cbn [obind fst]. unfold lc in Hl. rewrite Hl, N.eqb_refl. reflexivity.
Qed.
(* "A blank image can be formatted later: the result reads as a formatted one." *)
Theorem C78_blank_then_format : forall sha1 rnd ib f f' boot creator, ib_res ib = Some RBitStream -> ib_format ib = Some f -> ib_formatted ib = false \/ ib_fs ib = None ->
  is_pc f' -> (512 <= length (boot_of boot)) -> bytes_ok (boot_of boot) = true -> accepts_creator (boot_of boot) creator ->
  exists d d' B, ib_build sha1 rnd ib = Ok (d, None) /\ di_format rnd d f' RBitStream Fat12 boot creator = (d', Ok tt) /\
    boot_for (boot_of boot) f' creator B /\ disk_reads d' f' (fresh_content B) /\ clean_analysis f' d'.
Proof.
  intros sha1 rnd ib f f' boot creator Er Ef Hn Hf Hl Hb Hc. destruct (C78_blank sha1 rnd ib f Er Ef Hn) as (d & E & _ & Hres & _).
  destruct (boot_result_ok boot f' creator Hf Hl Hb Hc) as (b & Eb & Bf & Bo).
  destruct (format_main rnd d f' boot creator b Hf (or_intror Hres) Eb (proj1 Bf) Bo) as (d' & E' & Hr & Ha & _).
  exists d, d', (bs_buf b). split; [exact E|]. split; [exact E'|]. split; [exact Bf|]. split; [exact Hr|exact Ha].
Qed.
(* "What cannot be built is refused with an error: no resolution or no format, flux images, formatted sector images, the
   FAT16 file system, and formatted Amiga disks." *)
Theorem C78_refused : forall sha1 rnd ib,
  (ib_res ib = None -> ib_build sha1 rnd ib = Err ParameterError) /\
  (forall r, ib_res ib = Some r -> ib_format ib = None -> ib_build sha1 rnd ib = Err UnsupportedFormat) /\
  (forall f, ib_res ib = Some RFluxStream -> ib_format ib = Some f -> ib_build sha1 rnd ib = Err UnsupportedFormat) /\
  (forall f, ib_res ib = Some RMetaSector -> ib_format ib = Some f -> ib_formatted ib = true -> ib_build sha1 rnd ib = Err UnsupportedFormat) /\
  (forall f, ib_res ib = Some RBitStream -> ib_format ib = Some f -> ib_formatted ib = true -> ib_fs ib = Some Fat16 ->
     ib_build sha1 rnd ib = Err UnsupportedFilesystem) /\
  (forall f, ib_res ib = Some RBitStream -> ib_format ib = Some f -> ib_formatted ib = true -> ib_fs ib = Some Fat12 -> ~ is_pc f ->
     ib_build sha1 rnd ib = Err UnsupportedFormat).
Proof.
  intros sha1 rnd ib. unfold ib_build. split; [|split; [|split; [|split; [|split]]]].
  - intros ->. reflexivity.
  - intros r -> ->. reflexivity.
  - intros f -> ->. reflexivity.
  - intros f -> -> H. unfold ib_build_metasector. rewrite H. reflexivity.
  - intros f -> -> H H2. unfold ib_build_bitstream. rewrite H, H2. unfold ib_bitstream_formatted. destruct (tracks_built f) as (d & _ & _ & E & _). rewrite E. reflexivity.
  - intros f -> -> H H2 Ha. unfold ib_build_bitstream. rewrite H, H2. unfold ib_bitstream_formatted. destruct (tracks_built f) as (d & _ & _ & E & _). rewrite E.
    cbn [obind]. unfold di_format.
    assert (HL : 512 <= length DEFAULT_BOOT_SECTOR) by (apply Nat.leb_le; vm_compute; reflexivity).
    destruct (Format_proofs.boot_new_ok DEFAULT_BOOT_SECTOR HL) as (b & Eb & _). rewrite Eb. cbn [obind].
    assert (X : forall b', boot_update b' f = Err UnsupportedFormat).
    { intros b'. unfold boot_update. destruct f; try reflexivity; exfalso; apply Ha; split; discriminate. }
    rewrite X. reflexivity.
Qed.
(* A finding: an unformatted sector image is built without an error, but has no tracks at all: every position of its
   layout is missing, and nothing can be read. *)
Theorem C78_metasector_refuted : forall sha1 rnd ib f, ib_res ib = Some RMetaSector -> ib_format ib = Some f -> ib_formatted ib = false ->
  exists d, ib_build sha1 rnd ib = Ok (d, None) /\ di_geom d = mkCh (l_c (sf_layout f)) (l_h (sf_layout f)) /\
    (forall c h, (h < 2)%N -> di_track d (mkCh c h) = Ok None) /\
    forall c h q rnd', di_read_sector_basic rnd' d (mkCh c h) q None = Err SeekError.
Proof.
  intros sha1 rnd ib f Er Ef Hn. unfold ib_build. rewrite Er, Ef. unfold ib_build_metasector. rewrite Hn.
  eexists. split; [destruct f; reflexivity|]. cbn [di_geom]. split; [destruct f; reflexivity|]. split.
  - intros c h Hh. unfold di_track. cbn [ch_h ch_c]. assert (E : h = 0%N \/ h = 1%N) by lia.
    destruct E as [-> | ->]; cbn [head_map obind di_map0 di_map1]; destruct (N.to_nat c); reflexivity.
  - intros c h q rnd'. unfold di_read_sector_basic, seek_track. cbn [ch_h ch_c]. destruct (N.ltb_spec 1 h) as [|Hh]; [reflexivity|].
    assert (E : h = 0%N \/ h = 1%N) by lia. destruct E as [-> | ->]; reflexivity.
Qed.
(* "Building never panics." *)
Theorem C78_no_panic : forall sha1 rnd ib, is_tag (ib_creator ib) ->
  (forall f, ib_format ib = Some f -> no_collision sha1 rnd f (ib_creator ib)) -> ib_build sha1 rnd ib <> Panic.
Proof.
  intros sha1 rnd ib Ht Hn. destruct (C78_refused sha1 rnd ib) as (R1 & R2 & R3 & R4 & R5 & R6).
  destruct (ib_res ib) as [r|] eqn:Er; [|rewrite (R1 eq_refl); discriminate].
  destruct (ib_format ib) as [f|] eqn:Ef; [|rewrite (R2 r eq_refl eq_refl); discriminate].
  destruct r; [|clear R4|].
  all: try (rewrite (R3 f eq_refl eq_refl); discriminate).
  - destruct (ib_formatted ib) eqn:Efm; [rewrite (R4 f eq_refl eq_refl eq_refl); discriminate|].
    destruct (C78_metasector_refuted sha1 rnd ib f Er Ef Efm) as (d & E & _). rewrite E. discriminate.
  - destruct (ib_formatted ib) eqn:Efm; [|destruct (C78_blank sha1 rnd ib f Er Ef (or_introl Efm)) as (d & E & _); rewrite E; discriminate].
    destruct (ib_fs ib) as [fs|] eqn:Efs; [|destruct (C78_blank sha1 rnd ib f Er Ef (or_intror Efs)) as (d & E & _); rewrite E; discriminate].
    destruct fs; [|rewrite (R5 f eq_refl eq_refl eq_refl eq_refl); discriminate].
    destruct (N.ltb_spec (sf_disk_size f) 0); [clear - H; lia|].
    assert (D : is_pc f \/ ~ is_pc f) by (destruct f; (left; split; discriminate) || (right; intros [X Y]; congruence)).
    destruct D as [Hf|Hf]; [|rewrite (R6 f eq_refl eq_refl eq_refl eq_refl Hf); discriminate].
    destruct (C78_formatted sha1 rnd ib f Er Ef Efm Efs Hf Ht (Hn f eq_refl)) as (d & boot & B & E & _). rewrite E. discriminate.
Qed.

(* the hypotheses are met: 360K disks need no assumption on SHA-1, and a 3-byte tag is padded *)
Example C78_formatted_ex : forall sha1 rnd, exists d boot, ib_build sha1 rnd (configured PcFloppy360 (Some [0x41; 0x42; 0x43]%N)) = Ok (d, Some boot) /\
  forall rnd', exists out, raw_save rnd' d (Some boot) = Ok out /\ N.of_nat (length out) = 368640%N /\ slice out 0x147 8 = [0x41; 0x42; 0x43; 32; 32; 32; 32; 32]%N.
Proof.
  intros sha1 rnd. apply (C78_creator_tag sha1 rnd PcFloppy360 [0x41; 0x42; 0x43]%N); [split; discriminate|reflexivity|]. intros H. discriminate H.
Qed.

(* "The settings do not disturb each other: they can be made in any order, and each of format, resolution and creator tag is the
   one set last." *)
Theorem C78_settings : forall b f r tag fs,
  with_resolution (with_standard_format b f) r = with_standard_format (with_resolution b r) f /\
  with_creator_tag (with_standard_format b f) tag = with_standard_format (with_creator_tag b tag) f /\
  with_creator_tag (with_resolution b r) tag = with_resolution (with_creator_tag b tag) r /\
  with_filesystem (with_standard_format b f) fs = with_standard_format (with_filesystem b fs) f /\
  with_filesystem (with_resolution b r) fs = with_resolution (with_filesystem b fs) r /\
  with_filesystem (with_creator_tag b tag) fs = with_creator_tag (with_filesystem b fs) tag /\
  ib_format (with_standard_format b f) = Some f /\ ib_res (with_resolution b r) = Some r /\ ib_fs (with_filesystem b fs) = Some fs /\
  with_formatted b true = with_filesystem b Fat12 /\ ib_formatted (with_formatted b false) = false.
Proof. repeat split. Qed.

Print Assumptions C78_formatted.
Print Assumptions C78_creator_tag.
Print Assumptions C78_blank.
Print Assumptions C78_blank_then_format.
Print Assumptions C78_refused.
Print Assumptions C78_metasector_refuted.
Print Assumptions C78_no_panic.

Print Assumptions C78_settings.
