(* Ipf_props.v - C76, C77: IPF images. *)
From Verif Require Import Base Base_lemmas Chs_model Crc_spec Crc32_spec Crc32_model Crc32_proofs Crc32_props Mfm_spec Mfm_proofs BitRing_proofs Codec_lemmas
  Total_spec Total_proofs Total_props Bs_general_proofs Amiga_spec Amiga_proofs Amiga2_proofs Amiga3_proofs Amiga4_proofs Amiga5_proofs Amiga_props.
From Verif Require Import BitRing_model Mfm_model Types_model System34_model BitStream_model DiskImage_model Amiga_model Ipf_model Ipf_spec Ipf_proofs Ipf2_proofs.
From Coq Require Import Permutation Sorted.

(* What the documentation asks of a file, and the disk it describes: C cylinders (of 16 bits), H heads (one or two),
   each track once, in any order, with a key of its own; encoder 1 or 2.  The DATA chunks are in the same order as the
   IMGE chunks. *)
Definition ipf_disk (info : list N) (ts : list itrack) (file : list N) (C H : nat) : Prop :=
  ipf_file info ts ts file /\ (nth 1 info 0%N = 1%N \/ nth 1 info 0%N = 2%N) /\ Forall (track_ok (nth 1 info 0%N)) ts /\
  NoDup (map tk_key ts) /\ (H = 1 \/ H = 2) /\ (N.of_nat C <= 65536)%N /\
  (nth 7 info 0 < 2 ^ 32 - 1)%N /\ (nth 9 info 0 < 2 ^ 32 - 1)%N /\
  Permutation (map (fun t => (tk_cyl t, tk_head t)) ts) (all_tracks C H).
Lemma load_gen rnd info ts td hs file C H : ipf_file info ts td file -> (nth 1 info 0%N = 1%N \/ nth 1 info 0%N = 2%N) ->
  Forall (track_ok (nth 1 info 0%N)) ts -> incl td ts -> NoDup (map tk_key ts) -> (H = 1 \/ H = 2) -> (N.of_nat C <= 65536)%N ->
  (nth 7 info 0 < 2 ^ 32 - 1)%N -> (nth 9 info 0 < 2 ^ 32 - 1)%N ->
  Forall (track_ok (nth 1 info 0%N)) hs -> map tk_words hs = map tk_words ts ->
  Forall2 (fun h t => tk_blocks h = tk_blocks t /\ tk_edb h = tk_edb t) hs td ->
  Permutation (map (fun t => (tk_cyl t, tk_head t)) hs) (all_tracks C H) ->
  Forall (fun t => ~ mark_first (lay_track (nth 1 info 0%N) t)) hs ->
  exists im, ipf_load_image rnd file = Ok im /\ length (ii_pool im) = C * H /\
    ii_geom im = mkCh (as_u16 (nth 7 info 0 + 1)%N) (as_u8 (nth 9 info 0 + 1)%N) /\
    forall t, In t hs -> exists k it, nth_error (head_map im (tk_head t)) (N.to_nat (tk_cyl t)) = Some k /\ nth_error (ii_pool im) k = Some it /\
      it_ch it = mkCh (tk_cyl t) (tk_head t) /\ made rnd (nth 1 info 0%N) t it.
Proof.
  intros F He W0 Inc Nd HH LC L7 L9 W Hw Hb P Nm.
  destruct (file_loop info ts td file F He W0 Inc Nd) as (c & pos & s & E1 & E2 & E3 & Im & Fd0 & Inf).
  assert (Rw : map rec_of hs = map rec_of ts).
  { clear - Hw. revert ts Hw. induction hs as [|h hs IH]; intros [|t ts] E; try discriminate E; [reflexivity|]. cbn [map] in *.
    assert (E1 : tk_words h = tk_words t) by congruence. f_equal; [unfold rec_of; rewrite E1; reflexivity|apply IH; congruence]. }
  assert (Fd : Forall2 (data_for file (wd 1 info)) hs (il_datas s)).
  { clear - Hb Fd0. revert Fd0. generalize (il_datas s). induction Hb as [|h t hs td [B1 B2] Hb IH]; intros ds Q; inversion Q as [|? d ? dd [D1 D2] Q2]; subst; [constructor|].
    constructor; [|exact (IH _ Q2)]. unfold data_for. rewrite B1, B2. auto. }
  clear Fd0. rewrite <- Rw in Im. clear F W0 Inc Nd Hw Hb Rw ts td. rename hs into ts.
  unfold ipf_load_image. rewrite E1. cbn [obind]. rewrite E2. cbn [negb]. rewrite E3. cbn [obind]. rewrite Inf. cbn [if_encoder if_max_track if_max_side].
  set (images := il_images s) in *. clearbody images. subst images.
  set (images := map rec_of ts) in *.
  match goal with |- context [stable_sort ?le ?l] => set (o := stable_sort le l) end.
  set (g := fun k => ir_ch (nth k images (mkIr 0 0 0 0 0 0))).
  assert (Li : length images = length ts) by apply map_length.
  assert (Po : Permutation o (seq 0 (length ts))) by (unfold o; rewrite sort_perm, Li; reflexivity).
  assert (Sm : forall t, In t ts -> ir_ch (rec_of t) = mkCh (tk_cyl t) (tk_head t)).
  { intros t It. assert (I : In (tk_cyl t, tk_head t) (all_tracks C H)).
    { apply (Permutation_in _ P). apply (in_map (fun t => (tk_cyl t, tk_head t))). exact It. }
    apply all_tracks_in in I as [Ic Ih]. unfold ir_ch. change (ir_track (rec_of t)) with (tk_cyl t). change (ir_side (rec_of t)) with (tk_head t).
    unfold as_u16, as_u8. rewrite !N.mod_small; [reflexivity| |].
    - assert (Hn : (N.of_nat H <= 2)%N) by (destruct HH as [-> | ->]; discriminate). apply N.lt_le_trans with (N.of_nat H); [exact Ih|]. etransitivity; [exact Hn|discriminate].
    - apply N.lt_le_trans with (N.of_nat C); [exact Ic|exact LC]. }
  assert (Gs : map g (seq 0 (length ts)) = map (fun t => to_ch (tk_cyl t, tk_head t)) ts).
  { transitivity (map ir_ch images).
    - rewrite <- Li. unfold g. clearbody images. clear. induction images as [|x l IH]; [reflexivity|]. cbn [length seq map nth]. f_equal.
      rewrite <- seq_shift, map_map. exact IH.
    - unfold images. rewrite map_map. apply map_ext_in. intros t It. exact (Sm t It). }
  assert (Go : map g o = disk_chs C H).
  { unfold o. rewrite (sort_map _ ch_leb g).
    - rewrite Li, Gs. apply sort_is; [|apply chs_sorted; exact HH]. unfold disk_chs. rewrite <- (map_map (fun t => (tk_cyl t, tk_head t)) to_ch).
      apply Permutation_map. exact P.
    - intros a b Ha Hb. apply in_seq in Ha. apply in_seq in Hb. unfold g.
      destruct (nth_error images a) as [x|] eqn:Ea; [|apply nth_error_None in Ea; lia].
      destruct (nth_error images b) as [y|] eqn:Eb; [|apply nth_error_None in Eb; lia].
      rewrite (nth_error_nth _ _ _ Ea), (nth_error_nth _ _ _ Eb). reflexivity. }
  assert (Fo : Forall (fun k => k < length ts) o).
  { eapply Permutation_Forall; [symmetry; exact Po|]. apply Forall_forall. intros k Hk. apply in_seq in Hk. lia. }
  destruct (process_all rnd file (nth 1 info 0%N) images (il_datas s) ts C H He HH eq_refl W Fd Nm o (mkIi (mkCh 0 0) [] [] []) [] Fo) as (im & E4 & (P1 & P2 & P3 & P4) & new & N1 & N2).
  { symmetry. exact Go. }
  { split; [reflexivity|]. split; [reflexivity|]. split; [reflexivity|]. intros [|i] t Q; discriminate Q. }
  change (wd 1 info) with (nth 1 info 0%N). change (wd 7 info) with (nth 7 info 0%N). change (wd 9 info) with (nth 9 info 0%N).
  rewrite E4. cbn [obind].
  replace (2 ^ 32 <=? nth 7 info 0 + 1)%N with false by (symmetry; apply N.leb_gt; clear - L7; lia).
  replace (2 ^ 32 <=? nth 9 info 0 + 1)%N with false by (symmetry; apply N.leb_gt; clear - L9; lia). cbn [orb].
  eexists. split; [reflexivity|]. cbn [ii_pool ii_geom]. split.
  { rewrite <- (map_length it_ch), P1. unfold disk_chs. rewrite map_length. unfold all_tracks.
    rewrite (flat_map_const_length _ H); [rewrite seq_length; reflexivity|]. intros x. rewrite map_length, seq_length. reflexivity. }
  split; [reflexivity|]. intros t It. cbn [ii_pool app] in N1.
  apply In_nth_error in It as (k & Ek). assert (Ik : In k o).
  { apply (Permutation_in _ (Permutation_sym Po)). apply in_seq. split; [lia|]. cbn [Nat.add]. apply nth_error_Some. congruence. }
  apply In_nth_error in Ik as (i & Ei).
  assert (X : exists it, nth_error new i = Some it /\ it_ch it = ir_ch (rec_of t) /\ made rnd (nth 1 info 0%N) t it).
  { clear - N2 Ei Ek. revert i Ei. induction N2 as [|x y l l' (u & A & B & D) N2 IH]; intros [|i] Ei; try discriminate Ei.
    - injection Ei as ->. exists y. assert (u = t) by congruence. subst u. auto.
    - exact (IH i Ei). }
  destruct X as (it & Ni & Ci & Mi). exists i, it. rewrite (Sm t (nth_error_In _ _ Ek)) in Ci.
  rewrite <- N1 in Ni. pose proof (P4 i it Ni) as Q. rewrite Ci in Q. cbn [ch_c ch_h] in Q.
  split; [exact Q|]. split; [exact Ni|]. split; [exact Ci|exact Mi].
Qed.
Lemma load_all rnd info ts file C H : ipf_disk info ts file C H ->
  Forall (fun t => ~ mark_first (lay_track (nth 1 info 0%N) t)) ts ->
  exists im, ipf_load_image rnd file = Ok im /\ length (ii_pool im) = C * H /\
    ii_geom im = mkCh (as_u16 (nth 7 info 0 + 1)%N) (as_u8 (nth 9 info 0 + 1)%N) /\
    forall t, In t ts -> exists k it, nth_error (head_map im (tk_head t)) (N.to_nat (tk_cyl t)) = Some k /\ nth_error (ii_pool im) k = Some it /\
      it_ch it = mkCh (tk_cyl t) (tk_head t) /\ made rnd (nth 1 info 0%N) t it.
Proof.
  intros (F & He & W & Nd & HH & LC & L7 & L9 & P) Nm.
  refine (load_gen rnd info ts ts ts file C H F He W (incl_refl ts) Nd HH LC L7 L9 W eq_refl _ P Nm).
  clear. induction ts as [|t ts IH]; constructor; auto.
Qed.
(* Every such file loads, and every track is found under its cylinder and head with exactly the cells its stream
   elements describe (unless a System 34 mark is at its first cell, C68). *)
Theorem C76_load : forall rnd info ts file C H, ipf_disk info ts file C H ->
  Forall (fun t => ~ mark_first (lay_track (nth 1 info 0%N) t)) ts ->
  exists im, ipf_load_image rnd file = Ok im /\ length (ii_pool im) = C * H /\
    ii_geom im = mkCh (as_u16 (nth 7 info 0 + 1)%N) (as_u8 (nth 9 info 0 + 1)%N) /\
    forall t, In t ts -> exists k it,
      nth_error (if (tk_head t =? 0)%N then ii_map0 im else ii_map1 im) (N.to_nat (tk_cyl t)) = Some k /\ nth_error (ii_pool im) k = Some it /\
      it_ch it = mkCh (tk_cyl t) (tk_head t) /\ mfm_data (it_data it) = lay_track (nth 1 info 0%N) t.
Proof.
  intros rnd info ts file C H D Nm. destruct (load_all rnd info ts file C H D Nm) as (im & E & L & G & A).
  exists im. split; [exact E|]. split; [exact L|]. split; [exact G|]. intros t It. destruct (A t It) as (k & it & A1 & A2 & A3 & (m & _ & _ & _ & A4)).
  exists k, it. auto.
Qed.

(* ---- Amiga disks ---- *)
(* the track holds these Amiga sectors, one at least with a good header *)
Definition amiga_cells (l : list bool) (ss : list asector) : Prop :=
  (exists lead tail, l = amiga_track lead ss tail) /\ Forall recorded ss /\ Forall plain_label ss /\
  exists s, In s ss /\ as_header_sum s = header_sum s.
Lemma valid_items W lead : forall ss i, am_valid_ids (items_from W lead i ss) = flat_map (fun s => if bad_header s then [] else [id_of s]) ss.
Proof.
  induction ss as [|s t IH]; intros i; [reflexivity|]. rewrite items_cons. unfold am_valid_ids. rewrite flat_map_app. cbn [flat_map].
  change (flat_map _ (items_from W lead (S i) t)) with (am_valid_ids (items_from W lead (S i) t)). rewrite IH. f_equal.
  unfold sector_elems. cbn [flat_map ai_elem]. unfold bad_header. destruct (negb _); reflexivity.
Qed.
Lemma amiga_no_mark ss lead tail : ss <> [] -> Forall recorded ss -> ~ mark_first (amiga_track lead ss tail).
Proof.
  intros Hn Hr. destruct (recorded_wide ss Hr) as (W & HW & HW64).
  assert (Hl : amiga_track lead ss tail <> []).
  { destruct (mark_in W lead ss tail HW HW64 0) as [_ X]; [destruct ss; [contradiction|cbn; lia]|]. intros Y. rewrite Y in X. cbn [length] in X. lia. }
  destruct (stream_made (to_bytes (amiga_track lead ss tail)) (Some (length (amiga_track lead ss tail))) false _ (cells_input _) Hl) as (m & Em & Dm & Wm & Km & Vm & Lm).
  { intros i A B. exact (no_zero_run W lead ss tail HW HW64 i A B). }
  destruct (stream_total (to_bytes (amiga_track lead ss tail)) None (Some (length (amiga_track lead ss tail))) false) as (m' & Em' & Dm' & Rm'); [right; discriminate|exact I|].
  assert (m' = m) by congruence. subst m'.
  pose proof (finish_total (fun _ => false) (mkCh 0 0) m Rm') as F. rewrite Dm in F. unfold bt_finish in F. rewrite (s34_scan_none W lead ss tail HW HW64 m (proj1 Wm) Dm) in F. cbn [obind] in F.
  destruct F as [[_ F]|[F _]]; [discriminate F|exact F].
Qed.
Lemma amiga_rescan rnd m ss : blank m -> amiga_cells (mfm_data m) ss -> exists m' items, ipf_rescan rnd m = Ok (m', ImAm items) /\
  am_sector_list items = map (fun s => mkEntry (id_of s) (mkAttr (bad_header s) (bad_data s) false false)) ss /\
  am_sector_ids items = map id_of ss.
Proof.
  intros (R & _ & Vm & Km) ((lead & tail & Dm) & Hr & Hp & s0 & Is & Hs0).
  destruct (recorded_wide ss Hr) as (W & HW & HW64). assert (Hn : ss <> []) by (intros ->; destruct Is).
  pose proof (proj1 (proj1 R)) as Wm. assert (Lm : length (r_bits (m_clock m)) = length (amiga_track lead ss tail)) by (rewrite <- Dm; exact (proj2 R)).
  destruct (clock_made W lead ss tail HW HW64 Hr m Lm Hn) as [cm Ec].
  pose proof (fun i s => sector_holds W lead ss tail HW HW64 m cm i s Dm Wm Km Vm Lm Ec) as Hh.
  pose proof (elements_scan W lead ss HW64 Hr rnd (set_clock_bits m cm) Hh) as Es.
  unfold ipf_rescan. rewrite (am_scan_marks W lead ss tail HW HW64 m (proj1 Wm) Dm). cbn [obind].
  assert (Ne : exists x r, map (mark_at W lead) (seq 0 (length ss)) = x :: r) by (destruct ss; [contradiction|]; cbn [length seq map]; eauto). destruct Ne as (x & r & Ne).
  rewrite Ne in *. rewrite Ec. cbn [obind]. rewrite Es. cbn [obind].
  assert (V : am_valid_ids (items_from W lead 0 ss) <> []).
  { rewrite valid_items. intros Z. assert (I : In (id_of s0) []); [|destruct I]. rewrite <- Z. apply in_flat_map. exists s0. split; [exact Is|].
    rewrite Forall_forall in Hr, Hp. unfold bad_header. rewrite (short_full s0 (Hr s0 Is) (Hp s0 Is)), Hs0, N.eqb_refl. left. reflexivity. }
  destruct (am_valid_ids (items_from W lead 0 ss)) as [|v vs]; [contradiction|].
  eexists. eexists. split; [reflexivity|]. split; [apply list_items|apply ids_items].
Qed.
(* A disk of Amiga tracks: every track lists exactly the sectors recorded on it, a sector with an error where a
   recorded checksum is not that of what is recorded. *)
Theorem C76_amiga : forall rnd info ts file C H (sectors : itrack -> list asector), ipf_disk info ts file C H ->
  Forall (fun t => amiga_cells (lay_track (nth 1 info 0%N) t) (sectors t)) ts ->
  exists im, ipf_load_image rnd file = Ok im /\
    forall t, In t ts -> exists k it,
      nth_error (if (tk_head t =? 0)%N then ii_map0 im else ii_map1 im) (N.to_nat (tk_cyl t)) = Some k /\ nth_error (ii_pool im) k = Some it /\
      ipf_sector_list it = map (fun s => mkEntry (id_of s)
        (mkAttr (negb (as_header_sum s =? header_sum s)%N) (negb (as_data_sum s =? data_sum s)%N) false false)) (sectors t).
Proof.
  intros rnd info ts file C H sectors D A. rewrite Forall_forall in A.
  destruct (load_all rnd info ts file C H D) as (im & E & _ & _ & T).
  { apply Forall_forall. intros t It. destruct (A t It) as ((lead & tail & ->) & Hr & _ & s & Is & _). apply amiga_no_mark; [intros Z; rewrite Z in Is; destruct Is|exact Hr]. }
  exists im. split; [exact E|]. intros t It. destruct (T t It) as (k & it & T1 & T2 & _ & (m & Bm & Dm & Rm & _)).
  exists k, it. split; [exact T1|]. split; [exact T2|]. destruct (A t It) as (A1 & Hr & Hp & _). specialize (A t It). rewrite <- Dm in A.
  destruct (amiga_rescan rnd m (sectors t) Bm A) as (m' & items & Er & Sl & _).
  assert (Mt : it_meta it = ImAm items) by congruence. unfold ipf_sector_list. rewrite Mt, Sl.
  apply map_ext_in. intros s Hs. rewrite Forall_forall in Hr, Hp. unfold bad_header, bad_data. rewrite (short_full s (Hr s Hs) (Hp s Hs)). reflexivity.
Qed.
(* But none of these sectors can be read: the track keeps the System 34 schema it was made with, which does not know
   the elements of an Amiga track.  Every request is answered "no such sector". *)
Lemma foreign_none q index : forall items ei, find_foreign q index items ei = NotFound false false false.
Proof. induction items as [|i items IH]; intros ei; [reflexivity|]. cbn [find_foreign]. destruct (ai_start i <? index); apply IH. Qed.
Theorem C77_unreadable_refuted : forall rnd info ts file C H (sectors : itrack -> list asector), ipf_disk info ts file C H ->
  Forall (fun t => amiga_cells (lay_track (nth 1 info 0%N) t) (sectors t)) ts ->
  exists im, ipf_load_image rnd file = Ok im /\
    forall t, In t ts -> exists k it,
      nth_error (if (tk_head t =? 0)%N then ii_map0 im else ii_map1 im) (N.to_nat (tk_cyl t)) = Some k /\ nth_error (ii_pool im) k = Some it /\
      length (ipf_sector_list it) = length (sectors t) /\
      forall rnd' q n offset scope debug,
        exists r, ipf_read_sector rnd' it q n offset scope debug = Ok r /\ rs_not_found r = true /\ rs_buf r = [].
Proof.
  intros rnd info ts file C H sectors D A. rewrite Forall_forall in A.
  destruct (load_all rnd info ts file C H D) as (im & E & _ & _ & T).
  { apply Forall_forall. intros t It. destruct (A t It) as ((lead & tail & ->) & Hr & _ & s & Is & _). apply amiga_no_mark; [intros Z; rewrite Z in Is; destruct Is|exact Hr]. }
  exists im. split; [exact E|]. intros t It. destruct (T t It) as (k & it & T1 & T2 & _ & (m & Bm & Dm & Rm & _)).
  exists k, it. split; [exact T1|]. split; [exact T2|]. specialize (A t It). rewrite <- Dm in A.
  destruct (amiga_rescan rnd m (sectors t) Bm A) as (m' & items & Er & Sl & _).
  assert (Mt : it_meta it = ImAm items) by congruence. unfold ipf_sector_list. rewrite Mt, Sl, map_length. split; [reflexivity|].
  intros rnd' q n off scope dbg. unfold ipf_read_sector. rewrite Mt, foreign_none. eexists. split; [reflexivity|]. split; reflexivity.
Qed.

(* ---- C77: what does not hold ---- *)
(* An image whose DATA chunks are in another order than its IMGE chunks: the key that pairs them is only used to find
   the number of blocks.  Here the tracks of cylinder 0 and 1 come out exchanged. *)
Theorem C77_order_refuted : forall rnd info t0 t1 file,
  ipf_file info [t0; t1] [t1; t0] file -> (nth 1 info 0%N = 1%N \/ nth 1 info 0%N = 2%N) ->
  track_ok (nth 1 info 0%N) t0 -> track_ok (nth 1 info 0%N) t1 -> tk_key t0 <> tk_key t1 ->
  (nth 7 info 0 < 2 ^ 32 - 1)%N -> (nth 9 info 0 < 2 ^ 32 - 1)%N ->
  tk_cyl t0 = 0%N -> tk_head t0 = 0%N -> tk_cyl t1 = 1%N -> tk_head t1 = 0%N ->
  tk_start t0 = tk_start t1 -> tk_bits t0 = tk_bits t1 -> length (tk_blocks t0) = length (tk_blocks t1) ->
  ~ mark_first (lay_track (nth 1 info 0%N) t0) -> ~ mark_first (lay_track (nth 1 info 0%N) t1) ->
  exists im k0 k1 it0 it1, ipf_load_image rnd file = Ok im /\
    nth_error (ii_map0 im) 0 = Some k0 /\ nth_error (ii_pool im) k0 = Some it0 /\ mfm_data (it_data it0) = lay_track (nth 1 info 0%N) t1 /\
    nth_error (ii_map0 im) 1 = Some k1 /\ nth_error (ii_pool im) k1 = Some it1 /\ mfm_data (it_data it1) = lay_track (nth 1 info 0%N) t0.
Proof.
  intros rnd info t0 t1 file F He W0 W1 Ne L7 L9 C0 H0 C1 H1 Es Eb El N0 N1.
  set (swap := fun (w b : itrack) => mkItr (tk_words w) [N.of_nat (length (tk_edb b)); 0; 0; tk_key w]%N (tk_edb b) (tk_blocks b)).
  assert (Lay : forall w b, tk_start w = tk_start b -> tk_bits w = tk_bits b -> lay_track (nth 1 info 0%N) (swap w b) = lay_track (nth 1 info 0%N) b).
  { intros w b E1 E2. unfold lay_track. change (tk_start (swap w b)) with (tk_start w). change (tk_bits (swap w b)) with (tk_bits w). rewrite E1, E2. reflexivity. }
  assert (Ok_ : forall w b, track_ok (nth 1 info 0%N) w -> track_ok (nth 1 info 0%N) b -> length (tk_blocks w) = length (tk_blocks b) -> track_ok (nth 1 info 0%N) (swap w b)).
  { intros w b (A1 & A2 & A3 & A4 & A5 & A6 & A7 & A8 & A9) (B1 & B2 & B3 & B4 & B5 & B6 & B7 & B8 & B9) E.
    unfold track_ok. unfold swap at 1 2 3 4 5 6 7 8 9. cbn [tk_words tk_dwords tk_edb tk_blocks nth]. 
    split; [exact A1|]. split.
    { split; [reflexivity|]. assert (Bl : (N.of_nat (length (tk_edb b)) < 2 ^ 32)%N).
      { rewrite <- B3. destruct B2 as [Bl Bf]. rewrite Forall_forall in Bf. apply Bf. apply nth_In. rewrite Bl. lia. }
      assert (Kw : (tk_key w < 2 ^ 32)%N).
      { destruct A1 as [Al Af]. rewrite Forall_forall in Af. apply Af. apply nth_In. rewrite Al. lia. }
      constructor; [exact Bl|]. constructor; [reflexivity|]. constructor; [reflexivity|]. constructor; [exact Kw|constructor]. }
    split; [reflexivity|]. split; [reflexivity|]. split; [rewrite A5, E; reflexivity|]. split; [exact A6|]. split; [exact A7|]. split; [exact B8|exact B9]. }
  destruct (load_gen rnd info [t0; t1] [t1; t0] [swap t0 t1; swap t1 t0] file 2 1 F He) as (im & E & _ & _ & T).
  - constructor; [exact W0|]. constructor; [exact W1|constructor].
  - intros t [<-|[<-|[]]]; [right; left; reflexivity|left; reflexivity].
  - cbn [map]. constructor; [intros [Q|[]]; congruence|]. constructor; [intros []|constructor].
  - left. reflexivity.
  - discriminate.
  - exact L7.
  - exact L9.
  - constructor; [apply Ok_; assumption|]. constructor; [apply Ok_; [assumption|assumption|symmetry; assumption]|constructor].
  - reflexivity.
  - constructor; [split; reflexivity|]. constructor; [split; reflexivity|constructor].
  - cbn [map]. change (tk_cyl (swap t0 t1)) with (tk_cyl t0). change (tk_head (swap t0 t1)) with (tk_head t0).
    change (tk_cyl (swap t1 t0)) with (tk_cyl t1). change (tk_head (swap t1 t0)) with (tk_head t1). rewrite C0, H0, C1, H1. reflexivity.
  - constructor; [rewrite Lay by assumption; exact N1|]. constructor; [rewrite Lay by (symmetry; assumption); exact N0|constructor].
  - destruct (T (swap t0 t1) (or_introl eq_refl)) as (k0 & it0 & A1 & A2 & _ & (_ & _ & _ & _ & A3)).
    destruct (T (swap t1 t0) (or_intror (or_introl eq_refl))) as (k1 & it1 & B1 & B2 & _ & (_ & _ & _ & _ & B3)).
    change (tk_cyl (swap t0 t1)) with (tk_cyl t0) in A1. change (tk_head (swap t0 t1)) with (tk_head t0) in A1.
    change (tk_cyl (swap t1 t0)) with (tk_cyl t1) in B1. change (tk_head (swap t1 t0)) with (tk_head t1) in B1.
    rewrite C0, H0 in A1. rewrite C1, H1 in B1. rewrite Lay in A3 by assumption. rewrite Lay in B3 by (symmetry; assumption).
    exists im, k0, k1, it0, it1. split; [exact E|]. split; [exact A1|]. split; [exact A2|]. split; [exact A3|]. split; [exact B1|]. split; [exact B2|exact B3].
Qed.
(* A file that ends after its IMGE chunks, or whose DATA chunk is damaged (the loop over the chunks stops there without
   an error), panics. *)
Theorem C77_missing_refuted : forall rnd info ts cd c i isx rest e, ts <> [] ->
  is_chunk CAPS cd c -> words_ok 18 info -> is_chunk INFO (be_words info ++ repeat 0%N 12) i ->
  Forall (fun t => words_ok 17 (tk_words t)) ts -> NoDup (map tk_key ts) ->
  Forall2 (fun t x => is_chunk IMGE (be_words (tk_words t)) x) ts isx ->
  ipf_read_chunk rest 0 = Err e ->
  ipf_load_image rnd (c ++ i ++ concat isx ++ rest) = Panic.
Proof.
  intros rnd info ts cd c i isx rest e Hn Hc Wi Hi W17 Nd Hm He. set (file := c ++ i ++ concat isx ++ rest).
  pose proof (is_chunk_length CAPS _ c eq_refl Hc) as Lc. pose proof (is_chunk_length INFO _ i eq_refl Hi) as Li.
  assert (S0 : skipn 0 file = c ++ (i ++ concat isx ++ rest)) by (rewrite skipn_O; reflexivity).
  assert (S1 := skipn_next _ _ _ _ S0). assert (S2 := skipn_next _ _ _ _ S1). assert (S3 := skipn_next _ _ _ _ S2).
  unfold ipf_load_image. rewrite (read_chunk_ok CAPS cd c file 0 _ eq_refl eq_refl Hc S0). cbn [obind]. change (negb (id_is (ic_id (mkIc CAPS cd)) id_caps)) with false. cbv iota.
  set (s1 := mkIl (wd 1 info) [] [] [] (Some (mkInfo (wd 1 info) (wd 7 info) (wd 9 info)))).
  destruct (images_loop file rest ts isx (length file) s1 (0 + length c + length i) Hm W17 S2) as (f2 & Lf2 & E2); [clear - Lc; lia|].
  destruct (images_map ts [] s1) as (Im & _ & En & Dt & Inf); [exact Nd|reflexivity|intros [|k] t; discriminate|]. cbn [app] in Im.
  assert (E3 : ipf_loop (S (length file)) file (mkIl 0 [] [] [] None) (0 + length c) = Ok (fold_left add_image ts s1)).
  { rewrite (loop_step (length file) file _ (0 + length c) INFO _ i _ s1 (0 + length c + length i) eq_refl eq_refl Hi S1).
    - rewrite E2. destruct f2 as [|f2].
      { exfalso. assert (Lf : length file = length c + length i + length (concat isx) + length rest) by (unfold file; rewrite !app_length; lia). clear - Lf2 Lf. lia. }
      cbn [ipf_loop]. assert (Re : ipf_read_chunk file (0 + length c + length i + length (concat isx)) = Err e).
      { revert He. unfold ipf_read_chunk. rewrite S3, skipn_O. clear.
        destruct (take 4 rest) as [[a r]|x|]; cbn [obind]; try (intros Q; exact Q).
        destruct (word r) as [[b r1]|x|]; cbn [obind]; try (intros Q; exact Q).
        destruct (word r1) as [[d r2]|x|]; cbn [obind]; try (intros Q; exact Q).
        destruct (N.of_nat (length r2) <? b - 12)%N; [intros Q; exact Q|].
        destruct (Pce_model.MAXIMUM_CHUNK_SIZE <? b)%N; [intros Q; exact Q|].
        destruct (negb _); [intros Q; exact Q|discriminate]. }
      rewrite Re. reflexivity.
    - unfold ipf_step. cbn [ic_id ic_data]. change (id_is INFO id_info) with true. cbv iota. rewrite info_ok by exact Wi. reflexivity. }
  rewrite E3. cbn [obind]. rewrite Inf. cbn [s1 il_info]. rewrite Im, Dt. cbn [s1 il_datas].
  match goal with |- context [stable_sort ?le ?l] => assert (Po : Permutation (stable_sort le l) l) by apply sort_perm; destruct (stable_sort le l) as [|k o] eqn:Eo end.
  { exfalso. apply Permutation_nil in Po. rewrite map_length in Po. destruct ts; [congruence|discriminate Po]. }
  assert (Ik : In k (seq 0 (length (map rec_of ts)))) by (apply (Permutation_in _ Po); left; reflexivity).
  apply in_seq in Ik. cbn [ofold]. unfold oindex at 1. destruct (nth_error (map rec_of ts) k) as [r|] eqn:Ek; [|apply nth_error_None in Ek; lia].
  cbn [obind]. unfold oindex. destruct k; reflexivity.
Qed.

(* ---- damage ---- *)
(* Whatever chunk is damaged in its data, within 32 consecutive bits (in the order of the CRC), is not read; a file
   with a damaged CAPS chunk is not loaded. *)
Theorem C76_damage : forall id d d' c file pos rest, length id = 4 -> bytes_ok id = true -> bytes_ok d = true -> bytes_ok d' = true ->
  (12 + N.of_nat (length d) <= 0x100000)%N -> crc32_is (chunk id d 0) c -> burst bits_lsb 32 d d' ->
  skipn pos file = chunk id d' c ++ rest -> ipf_read_chunk file pos = Err ImageCorruptError /\
    (pos = 0 -> forall rnd, ipf_load_image rnd file = Err ImageCorruptError).
Proof.
  intros id d d' c file pos rest Hid Bid Bd Bd' Hl Hc (Ld & Nd & p & Hp) Hs.
  cut (ipf_read_chunk file pos = Err ImageCorruptError); [intros R; split; [exact R|]; intros -> rnd; unfold ipf_load_image; rewrite R; reflexivity|].
  unfold ipf_read_chunk. rewrite Hs. unfold chunk. rewrite <- !app_assoc.
  rewrite (take_app 4 id) by exact Hid. cbn [obind]. rewrite Ld in Hl.
  assert (L32 : (12 + N.of_nat (length d') < 2 ^ 32)%N) by (eapply N.le_lt_trans; [exact Hl|reflexivity]).
  rewrite word_app by exact L32. cbn [obind]. rewrite word_app by exact (proj1 Hc). cbn [obind].
  replace (12 + N.of_nat (length d') - 12)%N with (N.of_nat (length d')) by lia.
  rewrite app_length. replace (N.of_nat (length d' + length rest) <? N.of_nat (length d'))%N with false by (symmetry; apply N.ltb_ge; lia).
  rewrite Nat2N.id, (firstn_app_exact d' rest) by reflexivity.
  replace (Pce_model.MAXIMUM_CHUNK_SIZE <? 12 + N.of_nat (length d'))%N with false by (symmetry; apply N.ltb_ge; exact Hl).
  rewrite chunk_hash. unfold chunk in Hc. rewrite Ld in Hc.
  set (hdr := id ++ be 4 (12 + N.of_nat (length d')) ++ be 4 0).
  assert (Bh : bytes_ok hdr = true) by (unfold hdr; rewrite !bytes_ok_app, Bid, !be_bytes; reflexivity).
  replace (id ++ be 4 (12 + N.of_nat (length d')) ++ be 4 0 ++ d) with (hdr ++ d) in Hc by (unfold hdr; rewrite <- !app_assoc; reflexivity).
  replace (id ++ be 4 (12 + N.of_nat (length d')) ++ be 4 0 ++ d') with (hdr ++ d') by (unfold hdr; rewrite <- !app_assoc; reflexivity).
  pose proof (crc32_hash (hdr ++ d) c ltac:(rewrite bytes_ok_app, Bh, Bd; reflexivity) Hc) as Hh.
  destruct (N.eqb_spec c (not32 (fold_left ipf_byte (hdr ++ d') 0xFFFFFFFF%N))) as [E|E]; [exfalso|reflexivity].
  rewrite <- Hh in E. apply (f_equal not32) in E. rewrite !not32_not32, !fold_left_app in E.
  destruct (ipf_fold hdr 0xFFFFFFFF Bh ltac:(reflexivity)) as [Hs0 _]. set (s0 := fold_left ipf_byte hdr 0xFFFFFFFF%N) in *. clearbody s0.
  apply (f_equal mirror32) in E. rewrite (proj2 (ipf_fold d s0 Bd Hs0)), (proj2 (ipf_fold d' s0 Bd' Hs0)) in E.
  revert E. apply crcb_burst_differ with p; auto using HQ32, mirror_lt; try reflexivity.
  - rewrite !bits_lsb_length. lia.
  - intros H1. apply Nd, bits_lsb_inj; auto.
Qed.

(* ---- such files and disks exist ---- *)
Lemma chunk_exists id d : bytes_ok id = true -> bytes_ok d = true -> (12 + N.of_nat (length d) <= 0x100000)%N -> exists x, is_chunk id d x.
Proof.
  intros Bi Bd L. assert (B : bytes_ok (chunk id d 0) = true) by (unfold chunk; rewrite !bytes_ok_app, Bi, Bd, !be_bytes; reflexivity).
  destruct (Crc32_props.C33_crc32_is_remainder (chunk id d 0) B) as (c & _ & Hc & Hr).
  exists (chunk id d c). split; [exact Bd|]. split; [exact L|]. exists c. split; [split; [exact Hc|exact Hr]|reflexivity].
Qed.
Lemma words_chunk id n l : bytes_ok id = true -> words_ok n l -> n <= 18 -> exists x, is_chunk id (be_words l) x.
Proof.
  intros Bi [L _] Ln. apply chunk_exists; [exact Bi|apply be_words_bytes|]. rewrite be_words_length, L. apply N.le_trans with 84%N; [lia|discriminate].
Qed.
Lemma file_exists info ts td enc : words_ok 18 info -> Forall (track_ok enc) ts -> Forall (track_ok enc) td -> exists file, ipf_file info ts td file.
Proof.
  intros Wi F G.
  destruct (chunk_exists CAPS [] eq_refl eq_refl) as [c Hc]; [discriminate|].
  destruct (chunk_exists INFO (be_words info ++ repeat 0%N 12) eq_refl) as [i Hi].
  { rewrite bytes_ok_app, be_words_bytes. reflexivity. }
  { rewrite app_length, be_words_length, repeat_length, (proj1 Wi). discriminate. }
  assert (Xi : exists isx, Forall2 (fun t x => is_chunk IMGE (be_words (tk_words t)) x) ts isx).
  { induction F as [|t ts Ht F IH]; [exists []; constructor|]. destruct IH as [l IH].
    destruct (words_chunk IMGE 17 (tk_words t) eq_refl (proj1 Ht)) as [x Hx]; [lia|]. exists (x :: l). constructor; assumption. }
  assert (Xd : exists ds, Forall2 (fun t x => exists y, is_chunk DATA (be_words (tk_dwords t)) y /\ x = y ++ tk_edb t) td ds).
  { induction G as [|t td Ht G IH]; [exists []; constructor|]. destruct IH as [l IH].
    destruct (words_chunk DATA 4 (tk_dwords t) eq_refl (proj1 (proj2 Ht))) as [x Hx]; [lia|]. exists ((x ++ tk_edb t) :: l). constructor; [exists x; auto|assumption]. }
  destruct Xi as [isx Hm]. destruct Xd as [ds Hd]. exists (c ++ i ++ concat isx ++ concat ds). exists c, [], i, isx, ds. auto 8.
Qed.
Definition ex_track (key bits : N) (els : list element) : itrack :=
  let edb := be_words [0; 0; 0; 0; 0; 0; 0; 32]%N ++ stream els in
  mkItr [key; 0; 0; 0; 0; 0; 0; 0; 0; bits; 1; 0; 0; key; 0; 0; 0]%N [N.of_nat (length edb); 0; 0; key]%N edb [mkIb [0; 0; 0; 0; 0; 0; 0; 32]%N els].
Lemma ex_track_ok enc key bits els : (key < 2 ^ 32)%N -> (0 < bits < 2 ^ 32)%N -> Forall element_ok els -> (N.of_nat (length (stream els)) < 2 ^ 31)%N ->
  track_ok enc (ex_track key bits els).
Proof.
  intros Hk [Hb0 Hb] He Hl. assert (Z : (0 < 2 ^ 32)%N) by reflexivity.
  assert (W8 : words_ok 8 [0; 0; 0; 0; 0; 0; 0; 32]%N).
  { split; [reflexivity|]. do 7 (apply Forall_cons; [exact Z|]). constructor; [reflexivity|constructor]. }
  unfold track_ok, ex_track. cbn [tk_words tk_dwords tk_edb tk_blocks]. split; [|split; [|split; [|split; [|split; [|split; [|split; [|split]]]]]]].
  - split; [reflexivity|]. apply Forall_cons; [exact Hk|]. do 8 (apply Forall_cons; [exact Z|]). apply Forall_cons; [exact Hb|].
    apply Forall_cons; [reflexivity|]. do 2 (apply Forall_cons; [exact Z|]). apply Forall_cons; [exact Hk|]. do 3 (apply Forall_cons; [exact Z|]). constructor.
  - split; [reflexivity|]. apply Forall_cons.
    { rewrite app_length, be_words_length. cbn [length]. change (2 ^ 32)%N with (2 ^ 31 + 2 ^ 31)%N. assert (2 ^ 31 = 2147483648)%N as E31 by reflexivity. rewrite E31 in *. lia. }
    do 2 (apply Forall_cons; [exact Z|]). apply Forall_cons; [exact Hk|constructor].
  - reflexivity.
  - reflexivity.
  - reflexivity.
  - exact Hb0.
  - reflexivity.
  - exists (stream els). cbn [flat_map ib_words]. rewrite app_nil_r. reflexivity.
  - constructor; [|constructor]. split; [exact W8|]. split; [exact He|]. split; [intros _; split; [reflexivity|intros Q; discriminate Q]|]. exists []. rewrite app_nil_r.
    change (N.to_nat (ib_offset (mkIb [0; 0; 0; 0; 0; 0; 0; 32]%N els))) with 32. apply skipn_app_exact. rewrite be_words_length. reflexivity.
Qed.
Definition ex_els (b : N) : list element := [mkEl Gap 1 [0x4E; 0x4E]%N; mkEl Sync 1 [0x44; 0x89]%N; mkEl Data 1 [b]].
Definition ex_info : list N := [1; 2; 1; 0; 0; 0; 0; 1; 0; 0; 0; 0; 0; 0; 0; 0; 0; 0]%N.
Lemma ex_info_ok : words_ok 18 ex_info.
Proof. split; [reflexivity|]. unfold ex_info. repeat (apply Forall_cons; [reflexivity|]). constructor. Qed.
Lemma ex_els_ok b : (b < 256)%N -> Forall element_ok (ex_els b).
Proof.
  intros H. assert (One : (1 < 256 ^ N.of_nat 1)%N) by reflexivity. assert (Two : (2 < 256 ^ N.of_nat 1)%N) by reflexivity.
  constructor; [|constructor; [|constructor; [|constructor]]]; (split; [cbn; lia|]); (split; [first [discriminate|reflexivity]|]); (split; [first [exact One|exact Two]|]); try reflexivity.
  apply bytes_ok_Forall. constructor; [exact H|constructor].
Qed.
Lemma short_no_mark l : length l = 64 -> slice l 0 64 = l -> bits_val l <> 0x5224522452245552%N -> bits_val (slice l 0 48) <> 0x448944894489%N -> ~ mark_first l.
Proof. intros L E A B [[_ X]|[[_ X] _]]; [rewrite E in X; contradiction|contradiction]. Qed.
(* Two tracks of 64 cells; the files with their DATA chunks in the one and in the other order. *)
Example C76_ex : exists t0 t1 file file', ipf_disk ex_info [t0; t1] file 2 1 /\ ipf_file ex_info [t0; t1] [t1; t0] file' /\
  Forall (fun t => ~ mark_first (lay_track 2 t)) [t0; t1] /\ lay_track 2 t0 <> lay_track 2 t1 /\
  tk_key t0 <> tk_key t1 /\ tk_cyl t0 = 0%N /\ tk_cyl t1 = 1%N /\ tk_start t0 = tk_start t1 /\ tk_bits t0 = tk_bits t1 /\ length (tk_blocks t0) = length (tk_blocks t1) /\
  lay_track 2 t0 = mfm false (bits_of [0x4E; 0x4E]%N) ++ byte_bits 0x44 ++ byte_bits 0x89 ++ mfm false (byte_bits 0x11).
Proof.
  set (t0 := ex_track 0 64 (ex_els 0x11)). set (t1 := ex_track 1 64 (ex_els 0x22)).
  assert (W0 : track_ok 2 t0) by (apply ex_track_ok; [reflexivity|split; reflexivity|apply ex_els_ok; reflexivity|reflexivity]).
  assert (W1 : track_ok 2 t1) by (apply ex_track_ok; [reflexivity|split; reflexivity|apply ex_els_ok; reflexivity|reflexivity]).
  assert (W : Forall (track_ok 2) [t0; t1]) by (constructor; [exact W0|constructor; [exact W1|constructor]]).
  assert (W' : Forall (track_ok 2) [t1; t0]) by (constructor; [exact W1|constructor; [exact W0|constructor]]).
  destruct (file_exists ex_info [t0; t1] [t0; t1] 2 ex_info_ok W W) as [file F].
  destruct (file_exists ex_info [t0; t1] [t1; t0] 2 ex_info_ok W W') as [file' F'].
  exists t0, t1, file, file'. split; [|split; [exact F'|]].
  - split; [exact F|]. split; [right; reflexivity|]. split; [exact W|]. split.
    { constructor; [intros [Q|[]]; discriminate Q|]. constructor; [intros []|constructor]. }
    split; [left; reflexivity|]. split; [discriminate|]. split; [reflexivity|]. split; [reflexivity|]. reflexivity.
  - split; [|split; [|split; [discriminate|]]].
    + constructor; [|constructor; [|constructor]]; (apply short_no_mark; [vm_compute; reflexivity|vm_compute; reflexivity|vm_compute; discriminate|vm_compute; discriminate]).
    + intros E. apply (f_equal (fun l => nth 55 l false)) in E. vm_compute in E. discriminate E.
    + split; [reflexivity|]. split; [reflexivity|]. split; [reflexivity|]. split; [reflexivity|]. split; [reflexivity|]. vm_compute. reflexivity.
Qed.
(* A track with one Amiga sector, as a capture would describe it. *)
Definition el_cells (e : element) : list bool :=
  match el_kind e with Sync => bits_of (el_bytes e) | _ => mfm false (bits_of (el_bytes e)) end.
Lemma circ_write_fill : forall src a b, length src <= length b -> circ_write (a ++ b) (length a) src = a ++ src ++ skipn (length src) b.
Proof.
  induction src as [|x src IH]; intros a b L; [reflexivity|]. destruct b as [|y b]; [cbn in L; lia|]. cbn [circ_write length skipn].
  assert (E : upd (a ++ y :: b) (length a mod length (a ++ y :: b)) x = (a ++ [x]) ++ b).
  { rewrite Nat.mod_small by (rewrite app_length; cbn [length]; lia). clear. induction a as [|z a IH]; [reflexivity|]. cbn [app length upd]. rewrite IH. reflexivity. }
  rewrite E. replace (S (length a)) with (length (a ++ [x])) by (rewrite app_length; cbn [length]; lia).
  rewrite IH by (cbn [length] in L; lia). rewrite <- !app_assoc. reflexivity.
Qed.
Lemma lay_fill : forall els a b, length (flat_map el_cells els) <= length b ->
  fst (fold_left lay_element els (a ++ b, length a)) = a ++ flat_map el_cells els ++ skipn (length (flat_map el_cells els)) b.
Proof.
  induction els as [|e els IH]; intros a b L; [reflexivity|]. cbn [fold_left flat_map] in *. rewrite app_length in L.
  assert (E : lay_element (a ++ b, length a) e = ((a ++ el_cells e) ++ skipn (length (el_cells e)) b, length (a ++ el_cells e))).
  { unfold lay_element, el_cells in *. rewrite app_length. destruct (el_kind e); (rewrite circ_write_fill by lia; rewrite <- app_assoc; f_equal);
      rewrite ?mfm_length, bits_of_length; lia. }
  rewrite E, IH by (rewrite skipn_length; lia). rewrite <- !app_assoc. do 2 f_equal. rewrite app_length, skipn_skipn'. f_equal. f_equal. lia.
Qed.
Lemma bits_of_bytes_of : forall n l, length l = 8 * n -> bits_of (bytes_of n l) = l.
Proof.
  induction n as [|n IH]; intros l L; [destruct l; [reflexivity|discriminate L]|]. cbn [bytes_of]. unfold bits_of. cbn [flat_map].
  change (flat_map byte_bits (bytes_of n (skipn 8 l))) with (bits_of (bytes_of n (skipn 8 l))). rewrite IH by (rewrite skipn_length; lia).
  rewrite byte_bits_bits_val by (rewrite firstn_length; lia). apply firstn_skipn.
Qed.
Lemma bytes_of_length n : forall l, length (bytes_of n l) = n.
Proof. induction n as [|n IH]; intros l; [reflexivity|]. cbn [bytes_of length]. rewrite IH. reflexivity. Qed.
Lemma bytes_of_ok n : forall l, bytes_ok (bytes_of n l) = true.
Proof.
  intros l. apply bytes_ok_Forall. revert l. induction n as [|n IH]; intros l; cbn [bytes_of]; constructor; [|apply IH].
  pose proof (bits_val_lt (firstn 8 l)) as B. eapply N.lt_le_trans; [exact B|]. change 256%N with (2 ^ 8)%N. apply N.pow_le_mono_r; [discriminate|].
  rewrite firstn_length. lia.
Qed.
Example C76_amiga_ex : forall s, recorded s -> plain_label s -> as_header_sum s = header_sum s -> (128 <= as_format s)%N ->
  exists t file, ipf_disk ex_info [t] file 1 1 /\ amiga_cells (lay_track 2 t) [s].
Proof.
  intros s Hr Hp Hs Hf. assert (exists K, K = 512) as [K HK] by (eexists; reflexivity).
  assert (Ls : length (sector_bits s) = 8 * (28 + K)).
  { rewrite sector_bits_length by exact Hr. destruct Hr as (_ & _ & _ & _ & _ & L & _). rewrite L, HK. reflexivity. }
  set (D := bytes_of (28 + K) (sector_bits s)).
  set (els := [mkEl Data 2 [0; 0]%N; mkEl Sync 2 [0x44; 0x89; 0x44; 0x89]%N; mkEl Data 2 D]).
  assert (LD : length D = 28 + K) by apply bytes_of_length.
  assert (KN : (N.of_nat K = 512)%N) by (rewrite HK; reflexivity). clear HK.
  assert (Oe : Forall element_ok els).
  { assert (P2 : (256 ^ N.of_nat 2 = 65536)%N) by reflexivity.
    constructor; [|constructor; [|constructor; [|constructor]]]; (split; [cbn [el_width]; lia|]); (split; [first [discriminate|reflexivity]|]); cbn [el_width el_bytes]; rewrite P2; (split; [try reflexivity|try reflexivity]).
    - rewrite LD. clear - KN. lia.
    - apply bytes_of_ok. }
  assert (Cells : flat_map el_cells els = amiga_track [] [s] []).
  { unfold amiga_track, els. cbn [flat_map sectors_cells mfm last app]. rewrite !app_nil_r. unfold el_cells. cbn [el_kind el_bytes].
    unfold sector_cells. change (bits_of [0; 0]%N) with (repeat false 16). change (bits_of [0x44; 0x89; 0x44; 0x89]%N) with (sync_mark ++ sync_mark).
    unfold D. rewrite bits_of_bytes_of by exact Ls. rewrite <- app_assoc. do 3 f_equal.
    assert (B : exists r, sector_bits s = true :: r).
    { unfold sector_bits, block, as_info. cbn [flat_map odd_bits app]. eexists. f_equal.
      assert (F256 : (as_format s < 256)%N).
      { destruct Hr as (Hb & _). apply bytes_ok_Forall in Hb. exact (Forall_inv Hb). }
      assert (L7 : N.log2 (as_format s) = 7%N) by (apply N.log2_unique; [discriminate|split; [exact Hf|exact F256]]).
      rewrite <- L7. apply N.bit_log2. clear - Hf. lia. }
    destruct B as (r & ->). reflexivity. }
  set (n := length (amiga_track [] [s] [])).
  assert (Ln : (N.of_nat n = 64 + 16 * 540)%N).
  { unfold n. rewrite <- Cells. unfold els. cbn [flat_map]. unfold el_cells. cbn [el_kind el_bytes]. rewrite !app_length, !mfm_length, !bits_of_length, LD. cbn [length]. clear - KN. lia. }
  set (t := ex_track 0 (N.of_nat n) els).
  assert (Wt : track_ok 2 t).
  { apply ex_track_ok; [reflexivity|rewrite Ln; split; reflexivity|exact Oe|].
    unfold els, stream. cbn [flat_map]. unfold element_bytes. cbn [el_width el_bytes]. rewrite !app_length. cbn [length]. rewrite !app_length, !be_length, LD. cbn [length].
    assert (E31 : (2 ^ 31 = 2147483648)%N) by reflexivity. rewrite E31. clear - KN. lia. }
  destruct (file_exists ex_info [t] [t] 2 ex_info_ok) as [file F]; [constructor; [exact Wt|constructor]|constructor; [exact Wt|constructor]|].
  exists t, file. split.
  - split; [exact F|]. split; [right; reflexivity|]. split; [constructor; [exact Wt|constructor]|]. split; [constructor; [intros []|constructor]|].
    split; [left; reflexivity|]. split; [discriminate|]. split; [reflexivity|]. split; [reflexivity|]. reflexivity.
  - split; [|split; [constructor; [exact Hr|constructor]|split; [constructor; [exact Hp|constructor]|exists s; split; [left; reflexivity|exact Hs]]]].
    exists [], []. rewrite <- Cells. unfold lay_track. change (tk_blocks t) with [mkIb [0; 0; 0; 0; 0; 0; 0; 32]%N els]. cbn [fold_left].
    change (N.to_nat (tk_start t)) with 0. change (tk_bits t) with (N.of_nat n). rewrite Nat2N.id. unfold lay_block. cbn [ib_elements].
    set (blank := map (fun i => i mod 2 =? 1) (seq 0 n)). assert (Lb : length blank = n) by (unfold blank; rewrite map_length, seq_length; reflexivity).
    pose proof (lay_fill els [] blank) as Fl. cbn [app length] in Fl. destruct (fold_left lay_element els (blank, 0)) as [l p] eqn:El.
    cbn [fst] in *. rewrite Fl by (rewrite Lb, Cells; reflexivity). rewrite Cells. fold n. rewrite skipn_all2 by (rewrite Lb; reflexivity). apply app_nil_r.
Qed.
(* Two data elements one after the other do not make MFM data: after a 1 bit the first clock of the second element is
   set all the same (so two adjacent 1 cells are on the track). *)
Theorem C77_clock_refuted : exists t file, ipf_disk ex_info [t] file 1 1 /\ map el_kind (flat_map ib_elements (tk_blocks t)) = [Data; Data] /\
  forall rnd, exists im it, ipf_load_image rnd file = Ok im /\ nth_error (ii_pool im) 0 = Some it /\
    forall prev, mfm_data (it_data it) <> mfm prev (bits_of (flat_map el_bytes (flat_map ib_elements (tk_blocks t)))).
Proof.
  set (els := [mkEl Data 1 [0; 1]%N; mkEl Data 1 [0; 0]%N]). set (t := ex_track 0 64 els).
  assert (Oe : Forall element_ok els).
  { assert (Two : (2 < 256 ^ N.of_nat 1)%N) by reflexivity. constructor; [|constructor; [|constructor]]; (split; [cbn; lia|]); (split; [discriminate|]); (split; [exact Two|reflexivity]). }
  assert (Wt : track_ok 2 t) by (apply ex_track_ok; [reflexivity|split; reflexivity|exact Oe|reflexivity]).
  assert (W : Forall (track_ok 2) [t]) by (constructor; [exact Wt|constructor]).
  destruct (file_exists ex_info [t] [t] 2 ex_info_ok W W) as [file F]. exists t, file.
  assert (D : ipf_disk ex_info [t] file 1 1).
  { split; [exact F|]. split; [right; reflexivity|]. split; [exact W|]. split; [constructor; [intros []|constructor]|].
    split; [left; reflexivity|]. split; [discriminate|]. split; [reflexivity|]. split; reflexivity. }
  split; [exact D|]. split; [reflexivity|]. intros rnd.
  destruct (C76_load rnd ex_info [t] file 1 1 D) as (im & E & Lp & _ & T).
  { constructor; [|constructor]. apply short_no_mark; [vm_compute; reflexivity|vm_compute; reflexivity|vm_compute; discriminate|vm_compute; discriminate]. }
  destruct (T t (or_introl eq_refl)) as (k & it & _ & T2 & _ & T4).
  assert (k = 0).
  { assert (Hk : k < length (ii_pool im)) by (apply nth_error_Some; congruence). rewrite Lp in Hk. lia. }
  subst k. exists im, it. split; [exact E|]. split; [exact T2|]. intros prev X. rewrite T4 in X.
  apply (f_equal (fun l => nth 32 l false)) in X. destruct prev; vm_compute in X; discriminate X.
Qed.

Print Assumptions C76_load.
Print Assumptions C76_amiga.
Print Assumptions C77_unreadable_refuted.
Print Assumptions C77_order_refuted.
Print Assumptions C77_missing_refuted.
Print Assumptions C76_damage.
Print Assumptions C77_clock_refuted.
