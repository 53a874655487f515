(* Ipf2_proofs.v - loading an IPF file: the chunks in turn, the order of the tracks, the tracks. *)
From Verif Require Import Base Base_lemmas Chs_model Mfm_spec Mfm_proofs BitRing_proofs Codec_lemmas Total_spec Total_proofs Bs_general_proofs
  Amiga_spec Amiga_proofs Amiga2_proofs Amiga3_proofs Amiga4_proofs Amiga5_proofs.
From Verif Require Import BitRing_model Mfm_model Types_model System34_model BitStream_model DiskImage_model Amiga_model Ipf_model Ipf_spec Ipf_proofs.
From Coq Require Import Permutation Sorted.

(* ---- the chunks in turn ---- *)
Definition rec_of (t : itrack) : ImageRecord :=
  mkIr (wd 0 (tk_words t)) (wd 1 (tk_words t)) (wd 6 (tk_words t)) (wd 9 (tk_words t)) (wd 10 (tk_words t)) (wd 13 (tk_words t)).
Definition add_image (s : IpfLoad) (t : itrack) : IpfLoad :=
  mkIl (il_enc s) (il_images s ++ [rec_of t]) ((ir_key (rec_of t), length (il_images s)) :: il_map s) (il_datas s) (il_info s).
Lemma id_is_refl a : id_is a a = true.
Proof. unfold id_is. destruct (list_eq_dec N.eq_dec a a); congruence. Qed.
Lemma image_ok t r : words_ok 17 (tk_words t) -> ipf_image (be_words (tk_words t) ++ r) = Ok (rec_of t).
Proof. intros H. unfold ipf_image. rewrite words_app by exact H. reflexivity. Qed.
Lemma loop_step f file s pos id d x rest s' pos' : length id = 4 -> bytes_ok id = true -> is_chunk id d x -> skipn pos file = x ++ rest ->
  ipf_step file s (mkIc id d) (pos + length x) = Ok (s', pos') -> ipf_loop (S f) file s pos = ipf_loop f file s' pos'.
Proof. intros A B C D E. cbn [ipf_loop]. rewrite (read_chunk_ok id d x file pos rest A B C D). rewrite E. reflexivity. Qed.
Lemma skipn_next {A} (l a b : list A) p : skipn p l = a ++ b -> skipn (p + length a) l = b.
Proof. intros H. rewrite Nat.add_comm, <- skipn_skipn', H. apply skipn_app_exact. reflexivity. Qed.
Lemma skipn_bound {A} (l a b : list A) p : skipn p l = a ++ b -> a <> [] -> p + length a <= length l.
Proof.
  intros H N. apply (f_equal (@length A)) in H. rewrite skipn_length, app_length in H. destruct a; [congruence|]. cbn [length] in *. lia.
Qed.
Lemma images_loop file rest : forall ts xs fuel s pos, Forall2 (fun t x => is_chunk IMGE (be_words (tk_words t)) x) ts xs ->
  Forall (fun t => words_ok 17 (tk_words t)) ts -> skipn pos file = concat xs ++ rest -> length file < pos + fuel ->
  exists fuel', length file < pos + length (concat xs) + fuel' /\
    ipf_loop fuel file s pos = ipf_loop fuel' file (fold_left add_image ts s) (pos + length (concat xs)).
Proof.
  intros ts xs fuel s pos H. revert fuel s pos. induction H as [|t x ts xs Hx H IH]; intros fuel s pos W Hs Hf; cbn [concat fold_left].
  - exists fuel. cbn [length]. rewrite Nat.add_0_r. auto.
  - cbn [concat] in Hs. rewrite <- app_assoc in Hs.
    pose proof (is_chunk_length IMGE _ x eq_refl Hx) as Lx.
    assert (B : pos + length x <= length file) by (apply (skipn_bound _ _ _ _ Hs); intros ->; discriminate Lx).
    destruct fuel as [|f]; [lia|].
    destruct (IH f (add_image s t) (pos + length x)) as (f' & Lf & E).
    + exact (Forall_inv_tail W).
    + exact (skipn_next _ _ _ _ Hs).
    + clear - Hf Lx. lia.
    + exists f'. rewrite app_length, Nat.add_assoc. split; [exact Lf|]. rewrite <- E.
      apply (loop_step f file s pos IMGE _ x _ (add_image s t) (pos + length x) eq_refl eq_refl Hx Hs).
      unfold ipf_step. cbn [ic_id ic_data]. change (id_is IMGE id_info) with false. change (id_is IMGE id_imge) with true. cbv iota.
      rewrite <- (app_nil_r (be_words (tk_words t))). rewrite image_ok by exact (Forall_inv W). reflexivity.
Qed.
Lemma images_map : forall ts done s, NoDup (map tk_key (done ++ ts)) -> il_images s = map rec_of done ->
  (forall k t, nth_error done k = Some t -> lookup (tk_key t) (il_map s) = Some k) ->
  let s' := fold_left add_image ts s in il_images s' = map rec_of (done ++ ts) /\
  (forall k t, nth_error (done ++ ts) k = Some t -> lookup (tk_key t) (il_map s') = Some k) /\
  il_enc s' = il_enc s /\ il_datas s' = il_datas s /\ il_info s' = il_info s.
Proof.
  induction ts as [|t ts IH]; intros done s N E L; cbn [fold_left].
  - rewrite app_nil_r. auto.
  - specialize (IH (done ++ [t]) (add_image s t)). rewrite <- app_assoc in IH. cbn [app] in IH. apply IH; clear IH.
    + exact N.
    + unfold add_image. cbn [il_images]. rewrite E, map_app. reflexivity.
    + intros k u Hk. unfold add_image, lookup. cbn [il_map find fst]. change (ir_key (rec_of t)) with (tk_key t).
      destruct (Nat.lt_ge_cases k (length done)) as [Lk|Lk].
      * rewrite nth_error_app1 in Hk by exact Lk.
        assert (Ne : tk_key t <> tk_key u).
        { rewrite map_app in N. cbn [map] in N. apply NoDup_remove_2 in N. intros Eq. apply N. rewrite Eq. apply in_or_app. left. apply in_map. exact (nth_error_In _ _ Hk). }
        apply N.eqb_neq in Ne. rewrite Ne. exact (L k u Hk).
      * rewrite nth_error_app2 in Hk by exact Lk. destruct (k - length done) as [|j] eqn:Ej.
        -- cbn in Hk. injection Hk as <-. rewrite N.eqb_refl. cbn [option_map snd]. rewrite E, map_length. f_equal. lia.
        -- cbn in Hk. destruct j; discriminate.
Qed.
Definition data_for (file : list N) (enc : N) (t : itrack) (d : DataRecordInfo) : Prop :=
  dr_blocks d = map (blk_of enc) (tk_blocks t) /\ exists rest, skipn (dr_edb d) file = tk_edb t ++ rest.
Lemma flat_words_length bs : Forall (fun b => words_ok 8 (ib_words b)) bs -> length bs <= length (flat_map (fun b => be_words (ib_words b)) bs).
Proof.
  induction 1 as [|b bs [L _] H IH]; [cbn; lia|]. cbn [flat_map length]. rewrite app_length, be_words_length, L. lia.
Qed.
Lemma datas_loop file enc ts0 rest : (enc = 1%N \/ enc = 2%N) -> forall ts xs fuel s pos,
  Forall2 (fun t x => exists y, is_chunk DATA (be_words (tk_dwords t)) y /\ x = y ++ tk_edb t) ts xs ->
  Forall (track_ok enc) ts -> il_enc s = enc -> il_images s = map rec_of ts0 ->
  Forall (fun t => exists k, lookup (tk_key t) (il_map s) = Some k /\ nth_error ts0 k = Some t) ts ->
  skipn pos file = concat xs ++ rest -> length file < pos + fuel ->
  exists fuel' ds, length file < pos + length (concat xs) + fuel' /\ Forall2 (data_for file enc) ts ds /\
    ipf_loop fuel file s pos = ipf_loop fuel' file (mkIl (il_enc s) (il_images s) (il_map s) (il_datas s ++ ds) (il_info s)) (pos + length (concat xs)).
Proof.
  intros He ts xs fuel s pos H. revert fuel s pos. induction H as [|t x ts xs (y & Hy & Ex) H IH]; intros fuel s pos W Es Ei Lk Hs Hf; cbn [concat].
  - exists fuel, []. cbn [length]. rewrite Nat.add_0_r, app_nil_r. destruct s. auto.
  - cbn [concat] in Hs. rewrite <- app_assoc in Hs. subst x. rewrite <- app_assoc in Hs.
    pose proof (is_chunk_length DATA _ y eq_refl Hy) as Ly.
    assert (B : pos + length y <= length file) by (apply (skipn_bound _ _ _ _ Hs); intros ->; discriminate Ly).
    destruct fuel as [|f]; [lia|].
    pose proof (skipn_next _ _ _ _ Hs) as Hs1. pose proof (skipn_next _ _ _ _ Hs1) as Hs2.
    destruct (Forall_inv W) as (Ww & Wd & Dl & Dk & Db & _ & _ & (tail & Et) & Bk).
    assert (Wb : Forall (fun b => words_ok 8 (ib_words b)) (tk_blocks t)).
    { eapply Forall_impl; [|exact Bk]. cbv beta. intros b (Q & _). exact Q. }
    destruct (Forall_inv Lk) as (k & K1 & K2).
    set (d := mkDri (pos + length y) (map (blk_of enc) (tk_blocks t))).
    assert (B2 : pos + length y + length (tk_edb t) <= length file).
    { apply (f_equal (@length N)) in Hs1. rewrite skipn_length, app_length in Hs1. clear - Hs1 B. lia. }
    destruct (IH f (mkIl (il_enc s) (il_images s) (il_map s) (il_datas s ++ [d]) (il_info s)) (pos + length y + length (tk_edb t))) as (f' & ds & Lf & Fd & E); clear IH.
    + exact (Forall_inv_tail W).
    + exact Es.
    + exact Ei.
    + exact (Forall_inv_tail Lk).
    + exact Hs2.
    + clear - Hf Ly. lia.
    + exists f', (d :: ds). rewrite !app_length, !Nat.add_assoc. split; [exact Lf|]. split; [constructor; [split; [reflexivity|eexists; exact Hs1]|exact Fd]|].
      cbn [il_enc il_images il_map il_datas il_info] in E. rewrite <- app_assoc in E. cbn [app] in E. rewrite <- E.
      apply (loop_step f file s pos DATA _ y _ _ _ eq_refl eq_refl Hy Hs).
      unfold ipf_step. cbn [ic_id ic_data]. change (id_is DATA id_info) with false. change (id_is DATA id_imge) with false. change (id_is DATA id_data) with true. cbv iota.
      unfold ipf_data. rewrite <- (app_nil_r (be_words (tk_dwords t))). rewrite words_app by exact Wd. cbn [obind corrupt].
      change (wd 3 (tk_dwords t)) with (nth 3 (tk_dwords t) 0%N). rewrite Dk, K1, Ei.
      rewrite (map_nth_error rec_of k ts0 K2). change (ir_blocks (rec_of t)) with (nth 10 (tk_words t) 0%N). rewrite Db, Nat2N.id.
      assert (Lm : Nat.min (length (tk_blocks t)) (S (length file)) = length (tk_blocks t)).
      { pose proof (flat_words_length _ Wb) as Lw. apply (f_equal (@length N)) in Et. rewrite app_length in Et. clear - Lw Et B2. lia. }
      rewrite Lm, Es. pattern (tk_edb t) at 1 in Hs1. rewrite Et in Hs1. rewrite <- app_assoc in Hs1. rewrite Hs1, (blocks_ok enc He _ _ Wb). cbn [obind].
      change (wd 0 (tk_dwords t)) with (nth 0 (tk_dwords t) 0%N). rewrite Dl.
      replace (N.of_nat (length file) <? N.of_nat (pos + length y) + N.of_nat (length (tk_edb t)))%N with false by (symmetry; apply N.ltb_ge; clear - B2; lia).
      f_equal. f_equal. clear; lia.
Qed.
Lemma read_chunk_end file : ipf_read_chunk file (length file) = Err IoError.
Proof. unfold ipf_read_chunk. rewrite skipn_all. reflexivity. Qed.
Lemma info_ok info : words_ok 18 info -> ipf_info (be_words info ++ repeat 0%N 12) = Ok (mkInfo (wd 1 info) (wd 7 info) (wd 9 info)).
Proof. intros H. unfold ipf_info. rewrite words_app by exact H. reflexivity. Qed.
Lemma file_loop info ts td file : ipf_file info ts td file -> wd 1 info = 1%N \/ wd 1 info = 2%N -> Forall (track_ok (wd 1 info)) ts -> incl td ts -> NoDup (map tk_key ts) ->
  exists c pos s, ipf_read_chunk file 0 = Ok (c, pos) /\ id_is (ic_id c) id_caps = true /\
    ipf_loop (S (length file)) file (mkIl 0 [] [] [] None) pos = Ok s /\
    il_images s = map rec_of ts /\ Forall2 (data_for file (wd 1 info)) td (il_datas s) /\
    il_info s = Some (mkInfo (wd 1 info) (wd 7 info) (wd 9 info)).
Proof.
  intros (c & cd & i & isx & ds & Hc & Wi & Hi & Hm & Hd & Ef) He W Inc Nd.
  pose proof (is_chunk_length CAPS _ c eq_refl Hc) as Lc. pose proof (is_chunk_length INFO _ i eq_refl Hi) as Li.
  assert (S0 : skipn 0 file = c ++ (i ++ concat isx ++ concat ds)) by (rewrite skipn_O; exact Ef).
  assert (S1 := skipn_next _ _ _ _ S0). assert (S2 := skipn_next _ _ _ _ S1). assert (S3 := skipn_next _ _ _ _ S2).
  assert (Lf : length file = length c + length i + length (concat isx) + length (concat ds)) by (rewrite Ef, !app_length; lia).
  eexists. eexists.
  assert (W17 : Forall (fun t => words_ok 17 (tk_words t)) ts) by (eapply Forall_impl; [|exact W]; cbv beta; intros t (Q & _); exact Q).
  set (s1 := mkIl (wd 1 info) [] [] [] (Some (mkInfo (wd 1 info) (wd 7 info) (wd 9 info)))).
  destruct (images_loop file (concat ds) ts isx (length file) s1 (0 + length c + length i) Hm W17 S2) as (f2 & Lf2 & E2); [clear - Lc; lia|].
  destruct (images_map ts [] s1) as (Im & Lk & En & Dt & Inf); [exact Nd|reflexivity|intros [|k] t; discriminate|]. cbn [app] in Im, Lk.
  destruct (datas_loop file (wd 1 info) ts [] He td ds f2 (fold_left add_image ts s1) (0 + length c + length i + length (concat isx)) Hd (incl_Forall Inc W) En Im) as (f3 & dd & Lf3 & Fd & E3).
  { apply Forall_forall. intros t Ht. apply Inc in Ht. apply In_nth_error in Ht as (k & Hk). exists k. split; [exact (Lk k t Hk)|exact Hk]. }
  { rewrite app_nil_r. exact S3. }
  { exact Lf2. }
  eexists. split; [exact (read_chunk_ok CAPS cd c file 0 _ eq_refl eq_refl Hc S0)|]. split; [reflexivity|].
  split.
  - rewrite (loop_step (length file) file _ (0 + length c) INFO _ i _ s1 (0 + length c + length i) eq_refl eq_refl Hi S1).
    + rewrite E2, E3. destruct f3 as [|f3]; [exfalso; clear - Lf3 Lf; lia|]. cbn [ipf_loop].
      replace (0 + length c + length i + length (concat isx) + length (concat ds)) with (length file) by (clear - Lf; lia).
      rewrite read_chunk_end. reflexivity.
    + unfold ipf_step. cbn [ic_id ic_data]. change (id_is INFO id_info) with true. cbv iota. rewrite info_ok by exact Wi. reflexivity.
  - cbn [il_images il_datas il_info]. rewrite Im, Dt, Inf. split; [reflexivity|]. split; [exact Fd|reflexivity].
Qed.

(* ---- a new track, and the scan over it ---- *)
Lemma new_blank n : 0 < n -> exists m, mfm_new (empty_bits n (Some true)) None None = Ok m /\ blank m /\
  mfm_data m = map (fun i => i mod 2 =? 1) (seq 0 n).
Proof.
  intros H. destruct (mfm_new_ok (empty_bits n (Some true))) as [m E]. exists m. split; [exact E|].
  pose proof (mfm_new_data _ _ E) as D.
  assert (Ln : length (empty_bits n (Some true)) = n) by (unfold empty_bits; rewrite map_length, seq_length; reflexivity).
  assert (Ne : mfm_data m <> []) by (rewrite D; intros Z; rewrite Z in Ln; cbn in Ln; lia).
  pose proof (mfm_new_wf _ _ _ _ E Ne) as Wf.
  split; [|exact D]. split; [split; [split; [exact Wf|]|]|split; [intros i; exact (mfm_new_phase _ _ _ i 1 E)|split]].
  - unfold mfm_new in E. rewrite repeat_length, Nat.ltb_irrefl in E. injection E as <-. intros Z. apply (f_equal (@length bool)) in Z.
    match type of Z with length (r_bits (m_weak ?x)) = _ => change (length (repeat false (length (empty_bits n (Some true)))) = 0) in Z end.
    rewrite repeat_length, Ln in Z. lia.
  - unfold mfm_new in E. rewrite repeat_length, Nat.ltb_irrefl in E. injection E as <-. unfold mfm_len, ring_len.
    cbn [m_clock m_bits ring_set_wrap_value ring_from r_bits]. apply repeat_length.
  - unfold mfm_new in E. rewrite repeat_length, Nat.ltb_irrefl in E. injection E as <-. reflexivity.
  - intros i. pose proof (mfm_new_no_weak _ _ i 1 E 0 ltac:(lia)) as Q. rewrite Nat.add_0_r in Q. exact Q.
Qed.
Lemma ready_clock m cm : ready m -> length cm = length (r_bits (m_clock m)) -> ready (set_clock_bits m cm).
Proof.
  intros [[(A & B & C & D) W] L] E. split; [split; [|exact W]|].
  - split; [exact A|]. cbn [set_clock_bits with_clock m_clock r_bits r_wrap m_weak]. rewrite E. auto.
  - cbn [set_clock_bits with_clock m_clock r_bits]. rewrite E. exact L.
Qed.
Lemma rescan_ok rnd m : ready m -> ~ mark_first (mfm_data m) -> exists m' md, ipf_rescan rnd m = Ok (m', md) /\ mfm_data m' = mfm_data m.
Proof.
  intros R M. pose proof (proj1 (proj1 (proj1 R))) as P.
  destruct (am_loop_total m P (S (mfm_len m)) 0 [] ltac:(lia) ltac:(lia)) as (L & E & S1 & B).
  unfold ipf_rescan. unfold am_scan_markers. rewrite E. cbn [obind app].
  assert (C : exists m1, match L with [] => Ok m | _ => let! cm := am_create_clock_map L (r_bits (m_clock m)) in Ok (set_clock_bits m cm) end = Ok m1 /\
              ready m1 /\ mfm_data m1 = mfm_data m).
  { destruct L as [|x L]; [exists m; auto|]. rewrite clock_same.
    destruct (clock_total (map (pair Idam) (x :: L)) (r_bits (m_clock m))) as [cm Ec]; [discriminate|exact S1| |].
    { intros y Hy. apply in_map_iff in Hy as (o & <- & Ho). rewrite Forall_forall in B. specialize (B o Ho). cbn [snd]. rewrite (proj2 R). lia. }
    rewrite Ec. cbn [obind]. exists (set_clock_bits m cm). split; [reflexivity|]. split; [|reflexivity].
    apply ready_clock; [exact R|]. exact (clock_map_length _ _ _ Ec). }
  destruct C as (m1 & -> & R1 & D1). cbn [obind].
  destruct (am_scan_total rnd m1 L (proj1 R1)) as (items & -> & _). cbn [obind].
  destruct (am_valid_ids items) as [|v vs].
  - pose proof (finish_total rnd (mkCh 0 0) m1 (or_introl R1)) as F. rewrite D1 in F.
    destruct F as [[F _]|(_ & t & F & Dt & _)]; [contradiction|]. unfold bt_finish in F.
    destruct (scan_markers m1) as [L2|e|]; cbn [obind] in *; [|discriminate F|discriminate F].
    destruct L2 as [|y L2].
    + cbn [obind]. change (scan_metadata rnd m1 []) with (@Ok (list Inst * Mfm) ([], m1)). cbn [obind]. eexists. eexists. split; [reflexivity|exact D1].
    + destruct (create_clock_map (y :: L2) (r_bits (m_clock m1))) as [cm|e|]; cbn [obind] in *; [|discriminate F|discriminate F].
      destruct (scan_metadata rnd (set_clock_bits m1 cm) (y :: L2)) as [[its m2]|e|]; cbn [obind] in *; [|discriminate F|discriminate F].
      apply (f_equal (fun x => match x with Ok y => mfm_data (bt_data y) | _ => [] end)) in F. cbn [bt_data] in F. rewrite Dt in F.
      assert (D2 : mfm_data m2 = mfm_data m) by (rewrite <- F; destruct (data_ranges (meta_new its)); reflexivity).
      destruct (md_valid_ids (meta_new its)); [eexists; eexists; split; [reflexivity|exact D2]|].
      destruct (data_ranges (meta_new its)); eexists; eexists; (split; [reflexivity|exact D2]).
  - destruct (am_data_ranges items); eexists; eexists; (split; [reflexivity|exact D1]).
Qed.

(* ---- sorting ---- *)
Lemma sort_in_perm {A} (le : A -> A -> bool) x l : Permutation (sort_in le x l) (x :: l).
Proof.
  induction l as [|y l IH]; [reflexivity|]. cbn [sort_in]. destruct (le x y); [reflexivity|].
  rewrite IH. apply perm_swap.
Qed.
Lemma sort_perm {A} (le : A -> A -> bool) l : Permutation (stable_sort le l) l.
Proof. induction l as [|x l IH]; [reflexivity|]. cbn [stable_sort fold_right]. rewrite sort_in_perm. constructor. exact IH. Qed.
Lemma sort_in_map {A B} (le : A -> A -> bool) (le' : B -> B -> bool) (g : A -> B) x l :
  (forall a b, In a (x :: l) -> In b (x :: l) -> le a b = le' (g a) (g b)) -> map g (sort_in le x l) = sort_in le' (g x) (map g l).
Proof.
  induction l as [|y l IH]; intros H; [reflexivity|]. cbn [sort_in map]. rewrite <- H by (cbn; auto). destruct (le x y); [reflexivity|].
  cbn [map]. rewrite IH; [reflexivity|]. intros a b Ha Hb. apply H; cbn in *; tauto.
Qed.
Lemma sort_map {A B} (le : A -> A -> bool) (le' : B -> B -> bool) (g : A -> B) l :
  (forall a b, In a l -> In b l -> le a b = le' (g a) (g b)) -> map g (stable_sort le l) = stable_sort le' (map g l).
Proof.
  induction l as [|x l IH]; intros H; [reflexivity|]. cbn [stable_sort fold_right map].
  rewrite (sort_in_map le le' g).
  - fold (stable_sort le l). rewrite IH; [reflexivity|]. intros a b Ha Hb. apply H; cbn; auto.
  - intros a b Ha Hb. fold (stable_sort le l) in *. apply H.
    + destruct Ha as [->|Ha]; [left; reflexivity|right; exact (Permutation_in _ (sort_perm le l) Ha)].
    + destruct Hb as [->|Hb]; [left; reflexivity|right; exact (Permutation_in _ (sort_perm le l) Hb)].
Qed.
Definition chle (a b : DiskCh) : Prop := ch_leb a b = true.
Lemma ch_leb_iff a b : chle a b <-> (ch_c a < ch_c b)%N \/ (ch_c a = ch_c b /\ (ch_h a <= ch_h b)%N).
Proof. unfold chle, ch_leb. rewrite orb_true_iff, andb_true_iff, N.ltb_lt, N.eqb_eq, N.leb_le. reflexivity. Qed.
Lemma sort_in_sorted x l : StronglySorted chle l -> StronglySorted chle (sort_in ch_leb x l).
Proof.
  induction 1 as [|y l Hs IH Hf]; cbn [sort_in]; [repeat constructor|]. destruct (ch_leb x y) eqn:E.
  - constructor; [constructor; assumption|]. constructor; [exact E|]. eapply Forall_impl; [|exact Hf]. cbv beta. intros z Hz.
    apply ch_leb_iff in E. apply ch_leb_iff in Hz. apply ch_leb_iff. lia.
  - constructor; [exact IH|]. eapply Permutation_Forall; [symmetry; apply sort_in_perm|]. constructor; [|exact Hf].
    apply ch_leb_iff. assert (N : ~ chle x y) by (unfold chle; rewrite E; discriminate). rewrite ch_leb_iff in N. lia.
Qed.
Lemma sort_sorted l : StronglySorted chle (stable_sort ch_leb l).
Proof. induction l as [|x l IH]; [constructor|]. cbn [stable_sort fold_right]. apply sort_in_sorted. exact IH. Qed.
Lemma chle_antisym a b : chle a b -> chle b a -> a = b.
Proof. rewrite !ch_leb_iff. destruct a as [c h], b as [c' h']; cbn [ch_c ch_h]. intros A B. assert (c = c' /\ h = h') as [-> ->] by lia. reflexivity. Qed.
Lemma sorted_unique : forall a b, StronglySorted chle a -> StronglySorted chle b -> Permutation a b -> a = b.
Proof.
  induction a as [|x a IH]; intros b Sa Sb P.
  - apply Permutation_nil in P. congruence.
  - destruct b as [|y b]; [apply Permutation_sym, Permutation_nil in P; congruence|].
    inversion Sa as [|? ? Sa' Fa]; subst. inversion Sb as [|? ? Sb' Fb]; subst.
    assert (E : x = y).
    { pose proof (Permutation_in x P (or_introl eq_refl)) as Ix. pose proof (Permutation_in y (Permutation_sym P) (or_introl eq_refl)) as Iy.
      destruct Ix as [->|Ix]; [reflexivity|]. destruct Iy as [->|Iy]; [reflexivity|].
      rewrite Forall_forall in Fa, Fb. apply chle_antisym; [exact (Fa y Iy)|exact (Fb x Ix)]. }
    subst y. f_equal. apply IH; [assumption|assumption|]. exact (Permutation_cons_inv P).
Qed.
Lemma sort_is l l' : Permutation l l' -> StronglySorted chle l' -> stable_sort ch_leb l = l'.
Proof. intros P H. apply sorted_unique; [apply sort_sorted|exact H|]. rewrite sort_perm. exact P. Qed.

(* ---- the tracks of a disk, in order ---- *)
Definition to_ch (p : N * N) : DiskCh := mkCh (fst p) (snd p).
Definition disk_chs (C H : nat) : list DiskCh := map to_ch (all_tracks C H).
Lemma all_tracks_S C H : all_tracks (S C) H = all_tracks C H ++ map (fun h => (N.of_nat C, N.of_nat h)) (seq 0 H).
Proof. unfold all_tracks. rewrite seq_S, flat_map_app. cbn [flat_map Nat.add]. rewrite app_nil_r. reflexivity. Qed.
Lemma all_tracks_in C H c h : In (c, h) (all_tracks C H) -> (c < N.of_nat C)%N /\ (h < N.of_nat H)%N.
Proof.
  unfold all_tracks. intros I. apply in_flat_map in I as (k & Ik & I). apply in_map_iff in I as (j & E & Ij).
  apply in_seq in Ik. apply in_seq in Ij. injection E as <- <-. lia.
Qed.
Lemma chs_sorted H : (H = 1 \/ H = 2) -> forall C, StronglySorted chle (disk_chs C H).
Proof.
  intros HH. assert (G : forall l1 l2, StronglySorted chle l1 -> StronglySorted chle l2 -> (forall a b, In a l1 -> In b l2 -> chle a b) -> StronglySorted chle (l1 ++ l2)).
  { induction l1 as [|x l1 IH]; intros l2 S1 S2 A; [exact S2|]. inversion S1 as [|? ? S1' F1]; subst. cbn [app]. constructor.
    - apply IH; [exact S1'|exact S2|]. intros a b Ha Hb. apply A; [right; exact Ha|exact Hb].
    - apply Forall_app. split; [exact F1|]. apply Forall_forall. intros b Hb. apply A; [left; reflexivity|exact Hb]. }
  induction C as [|C IH]; [constructor|]. unfold disk_chs. rewrite all_tracks_S, map_app. apply G; [exact IH| |].
  - destruct HH as [-> | ->]; cbn [seq map to_ch fst snd]; repeat constructor. apply ch_leb_iff. cbn [ch_c ch_h]. right. split; [reflexivity|discriminate].
  - intros a b Ha Hb. apply in_map_iff in Ha as ((c & h) & <- & Ha). apply all_tracks_in in Ha as [Ha _].
    apply in_map_iff in Hb as ((c' & h') & <- & Hb). apply in_map_iff in Hb as (j & E & _). injection E as <- <-.
    apply ch_leb_iff. cbn [to_ch ch_c ch_h fst snd]. left. exact Ha.
Qed.
Definition count_h (zero : bool) (l : list DiskCh) : nat := length (filter (fun c => Bool.eqb zero (ch_h c =? 0)%N) l).
Lemma count_app z a b : count_h z (a ++ b) = count_h z a + count_h z b.
Proof. unfold count_h. rewrite filter_app, app_length. reflexivity. Qed.
Lemma count_all z H : (H = 1 \/ H = 2) -> (H = 1 -> z = true) -> forall C, count_h z (disk_chs C H) = C.
Proof.
  intros HH Hz. induction C as [|C IH]; [reflexivity|]. unfold disk_chs in *. rewrite all_tracks_S, map_app, count_app, IH.
  destruct HH as [-> | ->]; [rewrite (Hz eq_refl)|destruct z]; cbn [seq map]; unfold to_ch, count_h; cbn [fst snd filter ch_h];
    change (N.of_nat 0 =? 0)%N with true; try change (N.of_nat 1 =? 0)%N with false; cbn [Bool.eqb length]; lia.
Qed.
Lemma prefix_count H : (H = 1 \/ H = 2) -> forall C p c q, disk_chs C H = p ++ c :: q -> N.of_nat (count_h (ch_h c =? 0)%N p) = ch_c c.
Proof.
  intros HH. induction C as [|C IH]; intros p c q E; [destruct p; discriminate E|].
  unfold disk_chs in E. rewrite all_tracks_S, map_app in E. fold (disk_chs C H) in E. 
  assert (G : forall (l1 l2 p : list DiskCh) (c : DiskCh) (q : list DiskCh), l1 ++ l2 = p ++ c :: q -> (exists q', l1 = p ++ c :: q') \/ (exists p', p = l1 ++ p' /\ l2 = p' ++ c :: q)).
  { clear. induction l1 as [|x l1 I]; intros l2 p c q E; [right; exists p; auto|]. destruct p as [|y p]; cbn [app] in E.
    - injection E as -> _. left. exists l1. reflexivity.
    - injection E as -> E. destruct (I l2 p c q E) as [(q' & ->)|(p' & -> & ->)]; [left; exists q'; reflexivity|right; exists p'; auto]. }
  apply G in E as [(q' & E)|(p' & -> & E)]; [exact (IH p c q' E)|].
  rewrite count_app. destruct HH as [-> | ->]; cbn [seq map] in E.
  - destruct p' as [|y p']; [|apply (f_equal (@length DiskCh)) in E; rewrite app_length in E; cbn in E; lia].
    injection E as <- _. cbn [to_ch ch_c ch_h fst snd]. change (N.of_nat 0 =? 0)%N with true. rewrite count_all by auto. unfold count_h. cbn [filter length]. lia.
  - destruct p' as [|y p'].
    + injection E as <- _. cbn [to_ch ch_c ch_h fst snd]. change (N.of_nat 0 =? 0)%N with true. rewrite count_all by (auto; discriminate). unfold count_h. cbn [filter length]. lia.
    + injection E as <- E. destruct p' as [|y p']; [|apply (f_equal (@length DiskCh)) in E; rewrite app_length in E; cbn in E; lia].
      injection E as <- _. cbn [to_ch ch_c ch_h fst snd]. change (N.of_nat 1 =? 0)%N with false. rewrite count_all by (auto; discriminate). unfold count_h, to_ch. cbn [filter fst snd ch_h]. change (N.of_nat 0 =? 0)%N with true. change (1 =? 0)%N with false. change (0 =? 0)%N with true. cbn [Bool.eqb length]. lia.
Qed.

(* ---- the tracks in turn ---- *)
Definition head_map (im : IpfImage) (h : N) : list nat := if (h =? 0)%N then ii_map0 im else ii_map1 im.
Definition placed (im : IpfImage) (p : list DiskCh) : Prop :=
  map it_ch (ii_pool im) = p /\ length (ii_map0 im) = count_h true p /\ length (ii_map1 im) = count_h false p /\
  forall i t, nth_error (ii_pool im) i = Some t -> nth_error (head_map im (ch_h (it_ch t))) (N.to_nat (ch_c (it_ch t))) = Some i.
(* the track was made of the cells that the record describes *)
Definition made (rnd : nat -> bool) (enc : N) (t : itrack) (it : IpfTrack) : Prop :=
  exists m, blank m /\ mfm_data m = lay_track enc t /\ ipf_rescan rnd m = Ok (it_data it, it_meta it) /\ mfm_data (it_data it) = lay_track enc t.
Lemma push_placed im p it q C H : (H = 1 \/ H = 2) -> disk_chs C H = p ++ it_ch it :: q -> placed im p -> placed (ipf_push im it) (p ++ [it_ch it]).
Proof.
  intros HH E (P1 & P2 & P3 & P4). pose proof (prefix_count H HH C p _ q E) as Pc.
  set (h0 := (ch_h (it_ch it) =? 0)%N) in *.
  assert (Lm : length (if h0 then ii_map0 im else ii_map1 im) = N.to_nat (ch_c (it_ch it))).
  { rewrite <- Pc, Nat2N.id. destruct h0; assumption. }
  unfold ipf_push. fold h0. split; [cbn [ii_pool]; rewrite map_app, P1; reflexivity|].
  split; [|split].
  - cbn [ii_map0]. rewrite count_app. unfold count_h at 2. cbn [filter]. fold h0. destruct h0; cbn [Bool.eqb length]; [rewrite app_length|]; cbn [length]; lia.
  - cbn [ii_map1]. rewrite count_app. unfold count_h at 2. cbn [filter]. fold h0. destruct h0; cbn [Bool.eqb length]; [|rewrite app_length]; cbn [length]; lia.
  - intros i t Hi. cbn [ii_pool] in Hi. unfold head_map. cbn [ii_map0 ii_map1].
    destruct (Nat.lt_ge_cases i (length (ii_pool im))) as [L|L].
    + rewrite nth_error_app1 in Hi by exact L. specialize (P4 i t Hi). unfold head_map in P4.
      assert (A : forall (l : list nat) x, nth_error l (N.to_nat (ch_c (it_ch t))) = Some i -> nth_error (l ++ x) (N.to_nat (ch_c (it_ch t))) = Some i).
      { intros l x Q. rewrite nth_error_app1; [exact Q|]. apply nth_error_Some. congruence. }
      destruct (ch_h (it_ch t) =? 0)%N, h0; try exact P4; apply A; exact P4.
    + rewrite nth_error_app2 in Hi by exact L. destruct (i - length (ii_pool im)) as [|j] eqn:Ej; [|destruct j; discriminate Hi].
      cbn in Hi. injection Hi as <-. assert (Ei : i = length (ii_pool im)) by (clear - Ej L; lia). fold h0.
      destruct h0; rewrite <- Lm, nth_error_app2 by lia; rewrite Nat.sub_diag; cbn; congruence.
Qed.
Lemma process_one rnd file enc im p q C H t d : (enc = 1%N \/ enc = 2%N) -> (H = 1 \/ H = 2) -> track_ok enc t -> data_for file enc t d ->
  ~ mark_first (lay_track enc t) -> disk_chs C H = p ++ ir_ch (rec_of t) :: q -> placed im p ->
  exists it, ipf_process_track rnd file enc im (rec_of t) d = Ok (ipf_push im it) /\ it_ch it = ir_ch (rec_of t) /\ made rnd enc t it /\
    placed (ipf_push im it) (p ++ [it_ch it]).
Proof.
  intros He HH (Ww & Wd & Dl & Dk & Db & Bits & Start & _ & Bk) (Db2 & rest & Hs) Nm E Pl.
  unfold ipf_process_track. replace (negb ((enc =? 1)%N || (enc =? 2)%N)) with false by (destruct He as [-> | ->]; reflexivity).
  pose proof (prefix_count H HH C p _ q E) as Pc.
  assert (Hh : (ch_h (ir_ch (rec_of t)) < 2)%N).
  { assert (I : In (ir_ch (rec_of t)) (disk_chs C H)) by (rewrite E; apply in_or_app; right; left; reflexivity).
    apply in_map_iff in I as ((c & h) & Ec & I). apply all_tracks_in in I as [_ I]. rewrite <- Ec. cbn [to_ch ch_h fst snd]. destruct HH as [-> | ->]; lia. }
  unfold ipf_new_track. replace (2 <=? ch_h (ir_ch (rec_of t)))%N with false by (symmetry; apply N.leb_gt; exact Hh).
  destruct Pl as (P1 & P2 & P3 & P4).
  assert (Lm : length (if (ch_h (ir_ch (rec_of t)) =? 0)%N then ii_map0 im else ii_map1 im) = N.to_nat (ch_c (ir_ch (rec_of t)))).
  { rewrite <- Pc, Nat2N.id. destruct (ch_h (ir_ch (rec_of t)) =? 0)%N; assumption. }
  rewrite Lm, Nat.eqb_refl. cbn [negb].
  destruct (new_blank (N.to_nat (ir_bits (rec_of t)))) as (m & Em & Bm & Dm).
  { change (ir_bits (rec_of t)) with (tk_bits t). clear - Bits. lia. }
  rewrite Em. cbn [obind].
  assert (St : N.to_nat (ir_start (rec_of t) / 16 * 16) = N.to_nat (tk_start t)).
  { change (ir_start (rec_of t)) with (tk_start t). pose proof (N.div_mod (tk_start t) 16 ltac:(discriminate)) as Dv. rewrite Start in Dv.
    f_equal. clear - Dv. lia. }
  rewrite St. destruct d as [at_ bs]. cbn [dr_blocks dr_edb] in *. subst bs.
  destruct (track_lays enc file at_ (tk_edb t) rest He Hs (tk_blocks t) m (N.to_nat (tk_start t)) Bk Bm) as (m1 & E1 & B1 & D1).
  rewrite E1. cbn [obind].
  assert (D2 : mfm_data m1 = lay_track enc t).
  { rewrite D1, Dm. reflexivity. }
  destruct (rescan_ok rnd m1 (proj1 B1)) as (m2 & md & E2 & D3); [rewrite D2; exact Nm|].
  rewrite E2. cbn [obind]. exists (mkIt (ir_ch (rec_of t)) m2 md). split; [reflexivity|]. split; [reflexivity|].
  split; [exists m1; split; [exact B1|]; split; [exact D2|]; split; [exact E2|]; cbn [it_data]; rewrite D3; exact D2|].
  apply (push_placed im p _ q C H HH); [exact E|]. split; [exact P1|]. split; [exact P2|]. split; [exact P3|exact P4].
Qed.
Lemma process_all rnd file enc images datas ts C H : (enc = 1%N \/ enc = 2%N) -> (H = 1 \/ H = 2) -> images = map rec_of ts ->
  Forall (track_ok enc) ts -> Forall2 (data_for file enc) ts datas -> Forall (fun t => ~ mark_first (lay_track enc t)) ts ->
  forall o im p, Forall (fun k => k < length ts) o ->
  disk_chs C H = p ++ map (fun k => ir_ch (nth k images (mkIr 0 0 0 0 0 0))) o -> placed im p ->
  exists im', ofold (fun im k => let! r := oindex images k in let! d := oindex datas k in ipf_process_track rnd file enc im r d) o im = Ok im' /\
    placed im' (disk_chs C H) /\
    exists new, ii_pool im' = ii_pool im ++ new /\ Forall2 (fun k it => exists t, nth_error ts k = Some t /\ it_ch it = ir_ch (rec_of t) /\ made rnd enc t it) o new.
Proof.
  intros He HH Ei W Fd Nm. induction o as [|k o IH]; intros im p Fo E Pl.
  - cbn [map] in E. rewrite app_nil_r in E. subst p. exists im. split; [reflexivity|]. split; [exact Pl|]. exists []. rewrite app_nil_r. split; [reflexivity|constructor].
  - cbn [ofold map] in *. pose proof (Forall_inv Fo) as Hk. cbv beta in Hk.
    destruct (nth_error ts k) as [t|] eqn:Et; [|apply nth_error_None in Et; lia].
    assert (Er : nth_error images k = Some (rec_of t)) by (rewrite Ei; exact (map_nth_error _ _ _ Et)).
    rewrite (nth_error_nth _ _ _ Er) in E.
    assert (Ed : exists d, nth_error datas k = Some d /\ data_for file enc t d).
    { clear - Fd Et. revert k Et. induction Fd as [|x y ts ds Hxy F IH]; intros [|k] Et; try discriminate.
      - injection Et as <-. exists y. auto.
      - exact (IH k Et). }
    destruct Ed as (d & Ed & Hd).
    rewrite Forall_forall in W, Nm. pose proof (nth_error_In _ _ Et) as It.
    destruct (process_one rnd file enc im p _ C H t d He HH (W t It) Hd (Nm t It) E Pl) as (it & E1 & C1 & M1 & P1).
    unfold oindex. rewrite Er, Ed. cbn [obind]. rewrite E1. cbn [obind].
    rewrite <- Forall_forall in W, Nm.
    destruct (IH (ipf_push im it) (p ++ [it_ch it]) (Forall_inv_tail Fo)) as (im' & E2 & P2 & new & N2 & F2); [rewrite <- app_assoc, C1; exact E|exact P1|].
    exists im'. split; [exact E2|]. split; [exact P2|]. exists (it :: new). rewrite N2. unfold ipf_push. cbn [ii_pool]. rewrite <- app_assoc.
    split; [reflexivity|]. constructor; [exists t; auto|exact F2].
Qed.
