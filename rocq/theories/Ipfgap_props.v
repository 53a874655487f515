(* Ipfgap_props.v - C77, continued: gap streams and samples counted in bits (the SPS encoder of IPF files). *)
From Coq Require Import List Lia Bool PeanoNat.
From Verif Require Import Base Base_lemmas Codec_lemmas Mfm_proofs BitRing_proofs Chs_model Mfm_spec Crc_spec Crc32_spec Ipf_model Ipf_spec Ipf_proofs Ipf2_proofs Ipf_props Types_model System34_model BitRing_model Mfm_model.
From Verif Require Crc32_props.
Import ListNotations.

(* A file with one track (cylinder 0, head 0, 64 cells) of one block: its descriptor says g gap bits, has the flags fl, its gap
   streams are `gaps`, its data stream is `data`. *)
Definition one_words : list N := [0; 0; 0; 0; 0; 0; 0; 0; 0; 64; 1; 0; 0; 0; 0; 0; 0]%N.
Definition one_desc (g fl : N) (gaps : list N) : list N := [0; g; 32; 0; 0; fl; 0; 32 + N.of_nat (length gaps)]%N.
Definition one_track (g fl : N) (gaps data : list N) (els : list element) : itrack :=
  let edb := be_words (one_desc g fl gaps) ++ gaps ++ data in
  mkItr one_words [N.of_nat (length edb); 0; 0; 0]%N edb [mkIb (one_desc g fl gaps) els].

Lemma one_track_ok g x els : (g < 2 ^ 32)%N -> Forall element_ok els -> length (stream els) < 100 ->
  track_ok 2 (one_track g 1 (gap_stream [GapRepeat 1 2; GapBits 1 8 [x]]) (stream els) els).
Proof.
  intros Hg He Hl. assert (Z : (0 < 2 ^ 32)%N) by reflexivity.
  change (gap_stream [GapRepeat 1 2; GapBits 1 8 [x]]) with [33; 2; 34; 8; x; 0]%N.
  assert (W8 : words_ok 8 (one_desc g 1 [33; 2; 34; 8; x; 0]%N)).
  { split; [reflexivity|]. unfold one_desc. apply Forall_cons; [exact Z|]. apply Forall_cons; [exact Hg|]. repeat (apply Forall_cons; [reflexivity|]). constructor. }
  assert (L8 : length (be_words (one_desc g 1 [33; 2; 34; 8; x; 0]%N)) = 32) by (rewrite be_words_length; reflexivity).
  unfold track_ok, one_track. cbn [tk_words tk_dwords tk_edb tk_blocks]. split; [|split; [|split; [|split; [|split; [|split; [|split; [|split]]]]]]].
  - split; [reflexivity|]. unfold one_words. repeat (apply Forall_cons; [reflexivity|]). constructor.
  - split; [reflexivity|]. apply Forall_cons.
    { rewrite !app_length, L8. change (2 ^ 32)%N with 4294967296%N. cbn [length]. clear - Hl. lia. }
    repeat (apply Forall_cons; [reflexivity|]). constructor.
  - reflexivity.
  - reflexivity.
  - reflexivity.
  - reflexivity.
  - reflexivity.
  - exists ([33; 2; 34; 8; x; 0]%N ++ stream els). cbn [flat_map ib_words]. rewrite app_nil_r. reflexivity.
  - constructor; [|constructor]. split; [exact W8|]. split; [exact He|]. split.
    + intros _. split; [reflexivity|]. intros _. exists [GapRepeat 1 2; GapBits 1 8 [x]], [], (stream els).
      split; [constructor; [split; [lia|reflexivity]|constructor; [split; [lia|split; reflexivity]|constructor]]|].
      split; [constructor|]. split; [cbn; split; [reflexivity|exact I]|]. split; [exact I|].
      change (N.to_nat (ib_gap_offset _)) with 32. rewrite <- L8 at 1. rewrite skipn_app_exact by reflexivity. reflexivity.
    + exists []. rewrite app_nil_r, app_assoc. change (N.to_nat (ib_offset _)) with (32 + 6).
      apply skipn_app_exact. rewrite app_length, L8. reflexivity.
Qed.

(* FALSE: "the gap after a block holds what its gap stream says".  Whatever the sample of the gap stream is, the cells of the gap are
   the alternating cells of a new track. *)
Theorem C77_gap_refuted : forall x, (x < 256)%N ->
  let t := one_track 32 1 (gap_stream [GapRepeat 1 2; GapBits 1 8 [x]]) (stream [mkEl Data 1 [0x11]%N]) [mkEl Data 1 [0x11]%N] in
  exists file, ipf_disk ex_info [t] file 1 1 /\
  forall rnd, exists im it, ipf_load_image rnd file = Ok im /\ nth_error (ii_pool im) 0 = Some it /\
    slice (mfm_data (it_data it)) 16 32 = map (fun i => i mod 2 =? 1) (seq 0 32).
Proof.
  intros x Hx t. set (els := [mkEl Data 1 [0x11]%N]) in *.
  assert (Oe : Forall element_ok els).
  { constructor; [|constructor]. split; [cbn; lia|]. split; [discriminate|]. split; reflexivity. }
  assert (Wt : track_ok 2 t) by (apply one_track_ok; [reflexivity|exact Oe|cbn; lia]).
  assert (W : Forall (track_ok 2) [t]) by (constructor; [exact Wt|constructor]).
  destruct (file_exists ex_info [t] [t] 2 ex_info_ok W W) as [file F]. exists file.
  assert (D : ipf_disk ex_info [t] file 1 1).
  { split; [exact F|]. split; [right; reflexivity|]. split; [exact W|]. split; [constructor; [intros []|constructor]|].
    split; [left; reflexivity|]. split; [discriminate|]. split; [reflexivity|]. split; reflexivity. }
  split; [exact D|]. intros rnd.
  assert (LT : lay_track 2 t = lay_track 2 (one_track 32 1 [33; 2; 34; 8; 0; 0]%N (stream els) els)) by reflexivity.
  destruct (C76_load rnd ex_info [t] file 1 1 D) as (im & E & Lp & _ & T).
  { constructor; [|constructor]. change (nth 1 ex_info 0%N) with 2%N. rewrite LT. apply short_no_mark; [vm_compute; reflexivity|vm_compute; reflexivity|vm_compute; discriminate|vm_compute; discriminate]. }
  destruct (T t (or_introl eq_refl)) as (k & it & _ & T2 & _ & T4).
  assert (k = 0).
  { assert (Hk : k < length (ii_pool im)) by (apply nth_error_Some; congruence). rewrite Lp in Hk. lia. }
  subst k. exists im, it. split; [exact E|]. split; [exact T2|]. rewrite T4. change (nth 1 ex_info 0%N) with 2%N. rewrite LT. vm_compute. reflexivity.
Qed.

(* Concrete files *)
Definition mk_chunk (id data : list N) : list N := chunk id data (ipf_chunk_crc id (12 + N.of_nat (length data)) data).
Lemma mk_chunk_ok id d : bytes_ok id = true -> bytes_ok d = true -> (12 + N.of_nat (length d) <= 0x100000)%N -> is_chunk id d (mk_chunk id d).
Proof.
  intros Bi Bd L. assert (B : bytes_ok (chunk id d 0) = true) by (unfold chunk; rewrite !bytes_ok_app, Bi, Bd, !be_bytes; reflexivity).
  destruct (chunk_exists id d Bi Bd L) as (x & _ & _ & c & Hc & _).
  split; [exact Bd|]. split; [exact L|]. exists c. split; [exact Hc|]. unfold mk_chunk. rewrite chunk_hash.
  pose proof (crc32_hash _ _ B Hc) as X. unfold chunk in X. rewrite X. reflexivity.
Qed.
Definition one_file (t : itrack) : list N :=
  mk_chunk CAPS [] ++ mk_chunk INFO (be_words ex_info ++ repeat 0%N 12) ++ mk_chunk IMGE (be_words (tk_words t)) ++ mk_chunk DATA (be_words (tk_dwords t)) ++ tk_edb t.
Lemma one_file_ok t : length (tk_words t) = 17 -> length (tk_dwords t) = 4 -> ipf_file ex_info [t] [t] (one_file t).
Proof.
  intros L1 L2. exists (mk_chunk CAPS []), [], (mk_chunk INFO (be_words ex_info ++ repeat 0%N 12)), [mk_chunk IMGE (be_words (tk_words t))],
    [mk_chunk DATA (be_words (tk_dwords t)) ++ tk_edb t].
  split; [apply mk_chunk_ok; [reflexivity|reflexivity|discriminate]|]. split; [exact ex_info_ok|].
  split; [apply mk_chunk_ok; [reflexivity|rewrite bytes_ok_app, be_words_bytes; reflexivity|discriminate]|].
  split; [constructor; [|constructor]; apply mk_chunk_ok; [reflexivity|apply be_words_bytes|rewrite be_words_length, L1; discriminate]|].
  split; [constructor; [|constructor]; eexists; (split; [|reflexivity]); apply mk_chunk_ok; [reflexivity|apply be_words_bytes|rewrite be_words_length, L2; discriminate]|].
  unfold one_file. cbn [concat]. rewrite !app_nil_r. reflexivity.
Qed.

(* FALSE: "samples of data may be counted in bits".  The first element of such a block is read as if its size were in bytes; of one
   data byte in a well-formed file the loader says that the file is too short. *)
Theorem C77_bits_refuted : exists t file, ipf_file ex_info [t] [t] file /\
  Forall (fun b => N.testbit (ib_flags b) 2 = true /\ exists e, ib_elements b = [e] /\ el_kind e = Data /\ el_bytes e = [0x11]%N /\
    skipn (N.to_nat (ib_offset b)) (tk_edb t) =
      (kind_code Data + 32 * N.of_nat (el_width e))%N :: be (el_width e) (8 * N.of_nat (length (el_bytes e))) ++ el_bytes e ++ [0%N]) (tk_blocks t) /\
  forall rnd, ipf_load_image rnd file = Err IoError.
Proof.
  set (els := [mkEl Data 1 [0x11]%N]). set (t := one_track 0 4 [] [34; 8; 0x11; 0]%N els). exists t, (one_file t).
  split; [apply one_file_ok; reflexivity|]. split.
  - constructor; [|constructor]. split; [reflexivity|]. exists (mkEl Data 1 [0x11]%N). repeat (split; [reflexivity|]). vm_compute. reflexivity.
  - intros rnd. vm_compute. reflexivity.
Qed.

(* FALSE: "loading never panics".  A gap stream of 13 bytes, with the repeat count 2^56-1 for a sample of 256 bits, makes the loader compute
   a length beyond usize. *)
Theorem C77_gap_panic_refuted : exists t file, ipf_file ex_info [t] [t] file /\ length file < 400 /\
  Forall (fun b => N.testbit (ib_flags b) 2 = false /\ exists sample rest,
    skipn (N.to_nat (ib_gap_offset b)) (tk_edb t) = gap_stream [GapRepeat 7 (2 ^ 56 - 1); GapBits 2 512 sample] ++ rest) (tk_blocks t) /\
  forall rnd, ipf_load_image rnd file = Panic.
Proof.
  set (els := [mkEl Data 1 [0x11]%N]). set (gs := gap_stream [GapRepeat 7 (2 ^ 56 - 1); GapBits 2 512 (repeat 0%N 64)]).
  set (t := one_track 32 1 gs (stream els) els). exists t, (one_file t).
  split; [apply one_file_ok; reflexivity|]. split; [apply Nat.ltb_lt; vm_compute; reflexivity|]. split.
  - constructor; [|constructor]. split; [reflexivity|]. exists (repeat 0%N 64), (stream els). vm_compute. reflexivity.
  - intros rnd. vm_compute. reflexivity.
Qed.

(* The elements after the first are read with their sizes in bits, the last byte being whole: here a data byte, and another one of
   which 7 bits count. *)
Theorem C77_bits_mixed_refuted : exists t file, ipf_file ex_info [t] [t] file /\
  Forall (fun b => N.testbit (ib_flags b) 2 = true /\
    skipn (N.to_nat (ib_offset b)) (tk_edb t) = [34; 1; 0x11; 34; 7; 0x22; 35; 8; 0x4E; 0]%N /\
    ib_elements b = [mkEl Data 1 [0x11]%N; mkEl Data 1 [0x22]%N; mkEl Gap 1 [0x4E]%N]) (tk_blocks t) /\
  forall rnd, exists im it, ipf_load_image rnd file = Ok im /\ ii_pool im = [it] /\ mfm_data (it_data it) = lay_track 2 t.
Proof.
  set (els := [mkEl Data 1 [0x11]%N; mkEl Data 1 [0x22]%N; mkEl Gap 1 [0x4E]%N]).
  set (t := one_track 0 4 [] [34; 1; 0x11; 34; 7; 0x22; 35; 8; 0x4E; 0]%N els). exists t, (one_file t).
  split; [apply one_file_ok; reflexivity|]. split.
  - constructor; [|constructor]. split; [reflexivity|]. split; vm_compute; reflexivity.
  - intros rnd. eexists. eexists. split; [vm_compute; reflexivity|]. split; [reflexivity|]. vm_compute. reflexivity.
Qed.

Print Assumptions C77_gap_refuted.
Print Assumptions C77_bits_refuted.
Print Assumptions C77_gap_panic_refuted.
Print Assumptions C77_bits_mixed_refuted.
