(* Psi_proofs.v - PSI files. *)
From Verif Require Import Base Base_lemmas Chs_model Types_model MetaSector_model MetaSector_spec BitStream_model
  DiskImage_model DiskImage_spec DiskImage_proofs Format_model Raw_model Raw4_proofs TreeMap_proofs Crc32_proofs Pce_model Pce_proofs Psi_model Psi_spec.
From Coq Require Import Lia.
Import ListNotations.

Lemma id_eqb_eq a b : id_eqb a b = true -> a = b.
Proof. unfold id_eqb. destruct (list_eq_dec N.eq_dec a b); [auto|discriminate]. Qed.
Lemma psi_type_inv id :
  match psi_type id with
  | PsiSectorHeader => id = SECT | PsiSectorData => id = DATA | PsiIbmMfm => id = IBMM | PsiEnd => id = END_
  | PsiOffset => id = OFFS | PsiFileHeader => id = PSI_ | _ => True
  end.
Proof.
  unfold psi_type.
  repeat (match goal with |- context [if id_eqb id ?x then _ else _] => destruct (id_eqb id x) eqn:?E end; cbv iota; [try exact I; apply id_eqb_eq; assumption|]).
  exact I.
Qed.
Lemma psi_read_write id data rest : length id = 4 -> (N.of_nat (length data) <= MAXIMUM_CHUNK_SIZE)%N ->
  psi_read_chunk (write_chunk id data ++ rest) = Ok (psi_type id, data, rest).
Proof.
  intros Hid H. unfold psi_read_chunk. rewrite read_write_chunk by (auto; unfold MAXIMUM_CHUNK_SIZE in H; clear - H; lia).
  replace (MAXIMUM_CHUNK_SIZE <? N.of_nat (length data))%N with false by (symmetry; apply N.ltb_ge; exact H). reflexivity.
Qed.
Definition stepc (s : PsiLoad) (c : Chunk) : outcome PsiLoad := psi_step s (psi_type (fst c)) (snd c).
Definition readable (c : Chunk) : Prop := length (fst c) = 4 /\ psi_type (fst c) <> PsiEnd /\ small c.
Lemma psi_loop_step f s typ data rest : typ <> PsiEnd ->
  psi_loop (S f) s typ data rest =
  let! s := psi_step s typ data in let! (typ, data, rest) := psi_read_chunk rest in psi_loop f s typ data rest.
Proof. intros H. destruct typ; try congruence; reflexivity. Qed.
Lemma psi_loop_end f s data rest : psi_loop f s PsiEnd data rest = Ok s. Proof. destruct f; reflexivity. Qed.
Lemma psi_loop_chunks ed rest : (N.of_nat (length ed) <= MAXIMUM_CHUNK_SIZE)%N ->
  forall cs s c f, Forall readable cs -> psi_type (fst c) <> PsiEnd -> length cs < f ->
  psi_loop f s (psi_type (fst c)) (snd c) (chunks_bytes (cs ++ [(END_, ed)]) ++ rest) = ofold stepc (c :: cs) s.
Proof.
  intros Hed. induction cs as [|c2 cs IH]; intros s c f Hr Hc Hf; (destruct f as [|f]; [cbn in Hf; lia|]); rewrite psi_loop_step by exact Hc.
  - cbn [app chunks_bytes flat_map fst snd]. rewrite app_nil_r. rewrite psi_read_write by (auto; exact Hed).
    change (psi_type END_) with PsiEnd. cbn [ofold]. unfold stepc.
    destruct (psi_step s (psi_type (fst c)) (snd c)); cbn [obind]; auto. apply psi_loop_end.
  - inversion Hr as [|? ? (Ha & Hb & Hc2) Hr']; subst.
    cbn [app]. unfold chunks_bytes. cbn [flat_map]. fold (chunks_bytes (cs ++ [(END_, ed)])). rewrite <- app_assoc.
    rewrite psi_read_write by auto.
    change (ofold stepc (c :: c2 :: cs) s) with (let! s' := stepc s c in ofold stepc (c2 :: cs) s'). unfold stepc at 1.
    destruct (psi_step s (psi_type (fst c)) (snd c)) as [s'| |]; cbn [obind]; auto. apply IH; auto. cbn in Hf; lia.
Qed.
Lemma chunks_len cs : Forall (fun c => length (fst c) = 4) cs -> length cs <= length (chunks_bytes cs).
Proof.
  induction cs as [|c cs IH]; intros H; [cbn; lia|]. inversion H; subst. unfold chunks_bytes. cbn [flat_map length]. rewrite app_length.
  rewrite write_chunk_length by assumption. fold (chunks_bytes cs). specialize (IH ltac:(assumption)). lia.
Qed.

(* ---- one chunk ---- *)
Lemma aside_step c s : aside c -> stepc s c = Ok s.
Proof.
  intros (_ & H1 & H2 & H3 & H4 & H5). unfold stepc. pose proof (psi_type_inv (fst c)) as T. unfold psi_step.
  destruct (psi_type (fst c)); try reflexivity; try contradiction.
  destruct (Nat.ltb_spec (length (snd c)) 4) as [L|L]; [|reflexivity]. specialize (H5 T). lia.
Qed.
Lemma aside_fold cs s : Forall aside cs -> ofold stepc cs s = Ok s.
Proof. induction cs as [|c cs IH]; intros H; [reflexivity|]. inversion H; subst. cbn [ofold]. rewrite aside_step by assumption. cbn [obind]. auto. Qed.
Lemma aside_fold_app cs cs' s : Forall aside cs -> ofold stepc (cs ++ cs') s = ofold stepc cs' s.
Proof. intros H. rewrite ofold_app, aside_fold by exact H. reflexivity. Qed.
Lemma aside_readable cs : aside_ok cs -> Forall readable cs.
Proof.
  intros [H1 H2]. rewrite Forall_forall in *. intros c Hc. destruct (H1 c Hc) as (A & _ & _ & _ & B & _). split; [exact A|]. split; [|exact (H2 c Hc)].
  intros E. pose proof (psi_type_inv (fst c)) as T. rewrite E in T. contradiction.
Qed.
Lemma sector_readable t s : valid_sector s -> Forall readable (sector_chunks t s).
Proof.
  intros (A & _ & _ & B). unfold sector_chunks. apply Forall_app. split; [exact (aside_readable _ A)|].
  assert (S1 : forall x y z, length y = 4 -> psi_type y <> PsiEnd -> length x <= 8 -> (y, x) = z -> readable z).
  { intros x y z H1 H2 H3 <-. split; [exact H1|]. split; [exact H2|]. unfold small. cbn [snd]. lia. }
  apply Forall_app. split.
  - constructor; [|constructor]. eapply S1; [| | |reflexivity]; [reflexivity|discriminate|]. unfold be16. cbn [app length]. lia.
  - destruct (sd_body s) as [b|before ibm u data]; [constructor|]. destruct B as (_ & B1 & B2 & B3).
    apply Forall_app. split; [exact (aside_readable _ B1)|]. apply Forall_app. split.
    + destruct ibm as [[i after]|]; [|constructor]. constructor; [|exact (aside_readable _ B3)].
      eapply S1; [| | |reflexivity]; [reflexivity|discriminate|]. cbn [length]. lia.
    + constructor; [|constructor]. split; [reflexivity|]. split; [discriminate|]. exact B2.
Qed.
Lemma flag0 f : flag f 1 = N.testbit f 0. Proof. exact (land_pow2_0 f 0). Qed.
Lemma flag1 f : flag f 2 = N.testbit f 1. Proof. exact (land_pow2_0 f 1). Qed.
Lemma flag2 f : flag f 4 = N.testbit f 2. Proof. exact (land_pow2_0 f 2). Qed.
Lemma flag3 f : flag f 8 = N.testbit f 3. Proof. exact (land_pow2_0 f 3). Qed.
Lemma be16_val x : (x / 256 * 256 + x mod 256 = x)%N.
Proof. pose proof (N.div_mod x 256 ltac:(lia)). lia. Qed.

Lemma add_plain m p : as_alternate p = false -> as_weak p = None -> as_hole p = None ->
  mt_add_sector m p = Ok (mkMST (mt_ch m) (mt_sectors m ++ [sector_of p])).
Proof. intros H1 H2 H3. unfold mt_add_sector, sector_of. rewrite H1, H2, H3. reflexivity. Qed.
Lemma upd_last {A} (l : list A) x y : upd (l ++ [x]) (length l) y = l ++ [y].
Proof. induction l as [|z l IH]; [reflexivity|]. cbn [length app upd]. f_equal. exact IH. Qed.
Lemma psi_add_last d0 h m p : as_alternate p = false -> as_weak p = None -> as_hole p = None ->
  psi_add (push_track d0 h (TMeta m)) (Some (length (di_pool d0))) p =
  Ok (push_track d0 h (TMeta (mkMST (mt_ch m) (mt_sectors m ++ [sector_of p])))).
Proof.
  intros H1 H2 H3. unfold psi_add, oindex, push_track. cbn [di_pool]. rewrite nth_error_app2, Nat.sub_diag by lia. cbn [nth_error obind].
  rewrite add_plain by assumption. cbn [obind]. unfold with_pool. cbn [di_pool di_multires di_res di_geom di_analysis di_map0 di_map1]. rewrite upd_last. reflexivity.
Qed.
Lemma set_insert_idem x s : set_insert x (set_insert x s) = set_insert x s.
Proof.
  unfold set_insert at 2 3. destruct (existsb (N.eqb x) s) eqn:E.
  - unfold set_insert. rewrite E. reflexivity.
  - unfold set_insert. rewrite existsb_app. cbn [existsb]. rewrite N.eqb_refl, orb_true_r. reflexivity.
Qed.

(* ---- the sectors of the current track ---- *)
Definition inside d0 ch m tracks heads : PsiLoad :=
  mkPS (push_track d0 (ch_h ch) (TMeta m)) ctx_default tracks heads (Some (length (di_pool d0))).
Lemma sector_fold d0 t m tracks heads s : valid_sector s -> ch_in (mkCh (td_cyl t) (td_head t)) tracks = true ->
  ofold stepc (sector_chunks t s) (inside d0 (mkCh (td_cyl t) (td_head t)) m tracks heads) =
  Ok (inside d0 (mkCh (td_cyl t) (td_head t)) (mkMST (mt_ch m) (mt_sectors m ++ [sector_of (sector_params t s)])) tracks (set_insert (td_head t) heads)).
Proof.
  intros ([A _] & Hz & Halt & B) Hin. unfold sector_chunks. rewrite aside_fold_app by exact A. cbn [app ofold].
  unfold stepc at 1. cbn [fst snd]. change (psi_type SECT) with PsiSectorHeader. unfold be16. cbn [app psi_step]. rewrite !be16_val.
  unfold psi_sect. cbn [ps_tracks ps_heads ps_img ps_current ps_ctx inside]. rewrite Hin. cbn [obind]. rewrite flag0, flag1, flag2, Halt.
  unfold sector_params. destruct (sd_body s) as [b|before ibm u data].
  - rewrite B. cbn [cx_data_crc cx_alternate ch_h]. rewrite psi_add_last by reflexivity. cbn [obind ofold]. reflexivity.
  - destruct B as (-> & [B1 _] & _ & B3). cbn [obind]. rewrite aside_fold_app by exact B1.
    destruct ibm as [[i after]|].
    + cbn [app ofold]. unfold stepc at 1. cbn [ibm_chunk fst snd]. change (psi_type IBMM) with PsiIbmMfm. cbn [psi_step obind].
      rewrite flag0, flag1, flag2, flag3. rewrite aside_fold_app by exact (proj1 B3). cbn [ofold]. unfold stepc. cbn [fst snd].
      change (psi_type DATA) with PsiSectorData. cbn [psi_step ps_ctx cx_phys cx_size cx_ibm cx_data_crc cx_addr_crc cx_deleted cx_no_dam cx_alternate ctx_sid ps_img ps_current ctx_default ch_h].
      rewrite psi_add_last by reflexivity. reflexivity.
    + cbn [app ofold]. unfold stepc. cbn [fst snd].
      change (psi_type DATA) with PsiSectorData. cbn [psi_step ps_ctx cx_phys cx_size cx_ibm cx_data_crc cx_addr_crc cx_deleted cx_no_dam cx_alternate ctx_sid ps_img ps_current ctx_default ch_h].
      rewrite psi_add_last by reflexivity. reflexivity.
Qed.
Lemma sectors_fold d0 t tracks : forall ss m heads, Forall valid_sector ss -> ch_in (mkCh (td_cyl t) (td_head t)) tracks = true ->
  ss <> [] ->
  ofold stepc (flat_map (sector_chunks t) ss) (inside d0 (mkCh (td_cyl t) (td_head t)) m tracks heads) =
  Ok (inside d0 (mkCh (td_cyl t) (td_head t)) (mkMST (mt_ch m) (mt_sectors m ++ map (fun s => sector_of (sector_params t s)) ss)) tracks (set_insert (td_head t) heads)).
Proof.
  induction ss as [|s ss IH]; intros m heads HF Hin Hne; [congruence|]. inversion HF; subst. cbn [flat_map map].
  rewrite ofold_app, sector_fold by assumption. cbn [obind]. destruct ss as [|s2 ss].
  - reflexivity.
  - rewrite IH by (try assumption; discriminate). rewrite set_insert_idem. cbn [mt_sectors mt_ch]. rewrite <- app_assoc. reflexivity.
Qed.
(* ---- a new track ---- *)
Lemma ch_insert_in ch tracks : ch_in ch (ch_insert ch tracks) = true.
Proof.
  unfold ch_insert. fold (ch_in ch tracks). destruct (ch_in ch tracks) eqn:E; [exact E|]. unfold ch_in. rewrite existsb_app. cbn [existsb].
  rewrite !N.eqb_refl. cbn [andb orb]. apply orb_true_r.
Qed.
Lemma sector_new d t tracks heads cur s : valid_sector s -> meta_only d -> (td_head t < 2)%N ->
  ch_in (mkCh (td_cyl t) (td_head t)) tracks = false ->
  let d0 := with_res d (res_insert RMetaSector (di_res d)) in
  ofold stepc (sector_chunks t s) (mkPS d ctx_default tracks heads cur) =
  ofold stepc (sector_chunks t s) (inside d0 (mkCh (td_cyl t) (td_head t)) (mkMST (mkCh (td_cyl t) (td_head t)) []) (ch_insert (mkCh (td_cyl t) (td_head t)) tracks) heads).
Proof.
  intros ([A _] & _) [Hmul Hres] Hh Hin. cbv zeta. unfold sector_chunks. do 2 rewrite (aside_fold_app (sd_aside s)) by exact A. cbn [app ofold].
  match goal with |- obind ?a _ = obind ?b _ => enough (a = b) as -> by reflexivity end.
  unfold stepc. cbn [fst snd]. change (psi_type SECT) with PsiSectorHeader. unfold be16. cbn [app psi_step]. rewrite !be16_val.
  unfold psi_sect. cbn [ps_tracks ps_heads ps_img ps_current ps_ctx inside]. rewrite Hin, ch_insert_in.
  assert (E : add_track_metasector d (mkCh (td_cyl t) (td_head t)) =
    (push_track (with_res d (res_insert RMetaSector (di_res d))) (td_head t) (TMeta (mkMST (mkCh (td_cyl t) (td_head t)) [])), Ok (length (di_pool d)))).
  { unfold add_track_metasector. cbn [ch_h]. destruct (N.leb_spec 2 (td_head t)) as [L|L]; [exfalso; clear - L Hh; lia|].
    assert (Hrej : res_rejects d RMetaSector = false) by (unfold res_rejects; rewrite Hmul; destruct Hres as [-> | ->]; reflexivity). rewrite Hrej. reflexivity. }
  rewrite E. reflexivity.
Qed.
Lemma track_fold d s t tracks heads cur : valid_track t -> wf d s -> meta_only d -> ch_in (mkCh (td_cyl t) (td_head t)) tracks = false ->
  exists d' cur', ofold stepc (track_chunks t) (mkPS d ctx_default tracks heads cur) =
    Ok (mkPS d' ctx_default (tracks ++ [mkCh (td_cyl t) (td_head t)]) (set_insert (td_head t) heads) cur') /\
    wf d' (append_to s (td_head t) (track_of t)) /\ meta_only d'.
Proof.
  intros [Hc Hh Hne HF] Hwf Hmeta Hin. unfold track_chunks. destruct (td_sectors t) as [|x ss] eqn:Es; [congruence|].
  assert (E : ofold stepc (flat_map (sector_chunks t) (x :: ss)) (mkPS d ctx_default tracks heads cur) =
    ofold stepc (flat_map (sector_chunks t) (x :: ss)) (inside (with_res d (res_insert RMetaSector (di_res d))) (mkCh (td_cyl t) (td_head t)) (mkMST (mkCh (td_cyl t) (td_head t)) []) (ch_insert (mkCh (td_cyl t) (td_head t)) tracks) heads)).
  { cbn [flat_map]. rewrite !ofold_app. inversion HF; subst. rewrite (sector_new d t tracks heads cur x) by assumption. reflexivity. }
  rewrite E, sectors_fold by (try assumption; apply ch_insert_in). cbn [mt_ch mt_sectors app]. rewrite <- Es.
  change (TMeta (mkMST (mkCh (td_cyl t) (td_head t)) (map (fun s0 => sector_of (sector_params t s0)) (td_sectors t)))) with (track_of t).
  unfold inside. cbn [ch_h].
  change (TMeta (mkMST (mkCh (td_cyl t) (td_head t)) (map (fun s0 => sector_of (sector_params t s0)) (td_sectors t)))) with (track_of t).
  assert (Ei : ch_insert (mkCh (td_cyl t) (td_head t)) tracks = tracks ++ [mkCh (td_cyl t) (td_head t)]).
  { unfold ch_insert. fold (ch_in (mkCh (td_cyl t) (td_head t)) tracks). rewrite Hin. reflexivity. }
  rewrite Ei. eexists _, _. split; [reflexivity|]. destruct Hmeta as [Hmul Hres]. split.
  - apply push_wf; [apply with_res_wf; exact Hwf|exact Hh].
  - split; [exact Hmul|]. unfold push_track, with_res. cbn [di_res]. right. destruct Hres as [-> | ->]; reflexivity.
Qed.
Definition add_all (s : Heads) (ts : list TrackDesc) : Heads := fold_left (fun s t => append_to s (td_head t) (track_of t)) ts s.
Definition seen_all (seen : list N) (ts : list TrackDesc) : list N := fold_left (fun s t => set_insert (td_head t) s) ts seen.
Definition ch_of (t : TrackDesc) : DiskCh := mkCh (td_cyl t) (td_head t).
Lemma ch_in_spec t l : ch_in (ch_of t) (map ch_of l) = true <-> In (td_cyl t, td_head t) (map (fun t => (td_cyl t, td_head t)) l).
Proof.
  unfold ch_in. rewrite existsb_exists, in_map_iff. split.
  - intros (y & Hy & E). apply in_map_iff in Hy as (u & <- & Hu). cbn [ch_of ch_c ch_h] in E. apply andb_prop in E as [E1 E2].
    apply N.eqb_eq in E1. apply N.eqb_eq in E2. exists u. split; [congruence|exact Hu].
  - intros (u & E & Hu). exists (ch_of u). split; [apply in_map; exact Hu|]. cbn [ch_of ch_c ch_h].
    assert (td_cyl u = td_cyl t) by congruence. assert (td_head u = td_head t) by congruence.
    apply andb_true_intro. split; apply N.eqb_eq; congruence.
Qed.
Lemma tracks_fold : forall ts done d s heads cur, Forall valid_track ts -> tracks_together (done ++ ts) -> wf d s -> meta_only d ->
  exists d' cur', ofold stepc (flat_map track_chunks ts) (mkPS d ctx_default (map ch_of done) heads cur) =
    Ok (mkPS d' ctx_default (map ch_of (done ++ ts)) (seen_all heads ts) cur') /\ wf d' (add_all s ts) /\ meta_only d'.
Proof.
  induction ts as [|t ts IH]; intros done d s heads cur HF Hnd Hwf Hm.
  - exists d, cur. rewrite app_nil_r. auto.
  - inversion HF as [|? ? Hv HF']; subst.
    assert (Hin : ch_in (ch_of t) (map ch_of done) = false).
    { destruct (ch_in (ch_of t) (map ch_of done)) eqn:E; [|reflexivity]. apply ch_in_spec in E. exfalso.
      unfold tracks_together in Hnd. rewrite map_app in Hnd. cbn [map] in Hnd. apply NoDup_remove_2 in Hnd. apply Hnd. apply in_or_app. auto. }
    cbn [flat_map]. destruct (track_fold d s t _ heads cur Hv Hwf Hm Hin) as (d1 & c1 & E & W & M).
    assert (Hnd' : tracks_together ((done ++ [t]) ++ ts)) by (rewrite <- app_assoc; exact Hnd).
    destruct (IH (done ++ [t]) d1 _ (set_insert (td_head t) heads) c1 HF' Hnd' W M) as (d2 & c2 & E2 & W2 & M2).
    exists d2, c2. split; [|auto]. rewrite ofold_app, E. cbn [obind].
    assert (Em : map ch_of done ++ [mkCh (td_cyl t) (td_head t)] = map ch_of (done ++ [t])) by (rewrite map_app; reflexivity).
    rewrite Em, E2. rewrite <- app_assoc. reflexivity.
Qed.
Lemma add_all_heads : forall ts s, Forall valid_track ts ->
  add_all s ts = (fst s ++ fst (heads_of ts), snd s ++ snd (heads_of ts)).
Proof.
  induction ts as [|t ts IH]; intros s HF; [unfold add_all, heads_of; cbn; rewrite !app_nil_r; destruct s; reflexivity|].
  inversion HF as [|? ? Hv HF']; subst. unfold add_all in *. cbn [fold_left]. rewrite IH by exact HF'.
  pose proof (vt_head _ Hv) as Hh. assert (E : td_head t = 0%N \/ td_head t = 1%N) by lia.
  unfold heads_of. cbn [filter fst snd]. destruct E as [-> | ->]; change (0 =? 0)%N with true; change (0 =? 1)%N with false;
    change (1 =? 0)%N with false; change (1 =? 1)%N with true; cbn [append_to map fst snd]; rewrite <- app_assoc; reflexivity.
Qed.
Definition bit_of (b : bool) : N := if b then 1 else 0.
Lemma seen_all_count : forall ts seen, Forall valid_track ts -> (seen = [] \/ seen = [0] \/ seen = [1] \/ seen = [0; 1] \/ seen = [1; 0])%N ->
  N.of_nat (length (seen_all seen ts)) =
  (bit_of (existsb (N.eqb 0) seen || existsb (fun t => (td_head t =? 0)%N) ts) +
   bit_of (existsb (N.eqb 1) seen || existsb (fun t => (td_head t =? 1)%N) ts))%N.
Proof.
  induction ts as [|t ts IH]; intros seen HF Hs.
  - unfold seen_all. cbn [fold_left existsb]. destruct Hs as [->|[->|[->|[->| ->]]]]; reflexivity.
  - inversion HF as [|? ? Hv HF']; subst. unfold seen_all. cbn [fold_left]. fold (seen_all (set_insert (td_head t) seen) ts).
    pose proof (vt_head _ Hv) as Hh. assert (E : td_head t = 0%N \/ td_head t = 1%N) by lia. cbn [existsb].
    rewrite IH; [|exact HF'|]; destruct E as [-> | ->]; destruct Hs as [->|[->|[->|[->| ->]]]]; cbn; auto 7.
Qed.
Lemma psi_format_in a b : In (a, b) [(0, 0); (1, 0); (2, 0); (2, 1); (2, 2); (3, 0)]%N -> psi_format_ok a b = true.
Proof. intros H. repeat (destruct H as [H|H]; [injection H as <- <-; reflexivity|]). destruct H. Qed.
