(* Imd_proofs.v - the ImageDisk loader accepts exactly the encodings of valid tracks. *)
From Verif Require Import Base Base_lemmas Chs_model Types_model MetaSector_model MetaSector_spec BitStream_model
  DiskImage_model DiskImage_spec DiskImage_proofs Raw_model Raw4_proofs TreeMap_proofs Pce_proofs Imd_model Imd_spec.
From Coq Require Import Lia.

(* ---- data records ---- *)
Lemma read_content size c rest : (forall f d, c = Plain f d -> length d = size) ->
  imd_read_data (marker_of c) size (tl (content_bytes c) ++ rest) =
  Ok (mkISD (content_data size c) (match flag_of c with Deleted => true | _ => false end) (match flag_of c with DataError => true | _ => false end), rest).
Proof.
  intros H. destruct c as [|[| |] d|[| |] b]; cbn [marker_of content_bytes tl imd_read_data content_data flag_of app]; try reflexivity;
    rewrite read_exact_app by (eapply H; reflexivity); reflexivity.
Qed.
Lemma read_content_inv marker size rest x r : imd_read_data marker size rest = Ok (x, r) ->
  exists c, marker = marker_of c /\ rest = tl (content_bytes c) ++ r /\ (forall f d, c = Plain f d -> length d = size).
Proof.
  intros H. unfold imd_read_data in H.
  assert (R : forall del e, (let! (b, r) := read_exact size rest in Ok (mkISD b del e, r)) = Ok (x, r) ->
     exists b, rest = b ++ r /\ length b = size).
  { intros del e E. unfold read_exact in E. destruct (Nat.ltb_spec (length rest) size) as [L|L]; [discriminate|]. cbn [obind] in E.
    exists (firstn size rest). assert (skipn size rest = r) by congruence. subst r. rewrite firstn_skipn. split; [reflexivity|].
    rewrite firstn_length. lia. }
  assert (F : forall del e, match rest with b :: r => Ok (mkISD (repeat b size) del e, r) | [] => Err IoError end = Ok (x, r) ->
     exists b, rest = [b] ++ r).
  { intros del e E. destruct rest as [|b t]; [discriminate|]. exists b. assert (t = r) by congruence. subst. reflexivity. }
  assert (P : forall f b, length b = size -> forall f0 d, Plain f b = Plain f0 d -> length d = size) by congruence.
  assert (Q : forall f b, forall f0 d, Fill f b = Plain f0 d -> length d = size) by (intros; discriminate).
  destruct marker as [|p].
  - exists Unavailable. split; [reflexivity|]. split; [cbn; congruence|intros; discriminate].
  - destruct p as [[[p|p|]|[p|p|]|]|[[p|p|]|[p|p|]|]|]; cbn in H; try discriminate;
      first [destruct (R _ _ H) as (b & -> & L)|destruct (F _ _ H) as (b & ->)];
      first [exists (Plain Normal b); split; [reflexivity|]; split; [reflexivity|]; apply P; exact L
            |fail] || idtac.
    all: try (exists (Plain Deleted b); split; [reflexivity|]; split; [reflexivity|]; apply P; exact L).
    all: try (exists (Plain DataError b); split; [reflexivity|]; split; [reflexivity|]; apply P; exact L).
    all: try (exists (Fill Normal b); split; [reflexivity|]; split; [reflexivity|]; apply Q).
    all: try (exists (Fill Deleted b); split; [reflexivity|]; split; [reflexivity|]; apply Q).
    all: try (exists (Fill DataError b); split; [reflexivity|]; split; [reflexivity|]; apply Q).
Qed.
Lemma read_data_no_panic marker size rest : imd_read_data marker size rest <> Panic.
Proof.
  unfold imd_read_data, read_exact.
  destruct marker as [|p]; [discriminate|].
  destruct p as [[[p|p|]|[p|p|]|]|[[p|p|]|[p|p|]|]|]; try discriminate; try (destruct rest; discriminate);
    (destruct (length rest <? size); cbn [obind]; discriminate).
Qed.
Lemma marker_small c : (8 <? marker_of c)%N = false.
Proof. destruct c as [|[| |] d|[| |] b]; reflexivity. Qed.

(* ---- sectors ---- *)
Lemma add_plain m id data a : mt_add_sector m (mkAddSector id data None None a false) =
  Ok (mkMST (mt_ch m) (mt_sectors m ++ [sector_of (mkAddSector id data None None a false)])).
Proof. reflexivity. Qed.
Definition entry (code : N) (s : SectorDesc) : N * N * N * N := (sd_num s, sd_cyl s, sd_head s, N.of_nat (size_of code)).
Lemma size_n code : (code < 7)%N -> bytes_to_n (N.of_nat (size_of code)) = code /\ imd_sector_size code = Some (N.of_nat (size_of code)).
Proof.
  intros H. unfold size_of. rewrite N2Nat.id.
  assert (E : (code = 0 \/ code = 1 \/ code = 2 \/ code = 3 \/ code = 4 \/ code = 5 \/ code = 6)%N) by lia.
  destruct E as [->|[->|[->|[->|[->|[->| ->]]]]]]; split; vm_compute; reflexivity.
Qed.
Definition params (code : N) (s : SectorDesc) : AddSectorParams :=
  mkAddSector (mkChsn (mkChs (sd_cyl s) (sd_head s) (sd_num s)) code)
    (content_data (size_of code) (sd_content s)) None None
    (mkAttr false (match flag_of (sd_content s) with DataError => true | _ => false end)
                  (match flag_of (sd_content s) with Deleted => true | _ => false end) false) false.
Lemma sectors_fwd code : (code < 7)%N -> forall ss m rest,
  (forall s f d, In s ss -> sd_content s = Plain f d -> length d = size_of code) ->
  ofold imd_sector (map (entry code) ss) (m, flat_map (fun s => content_bytes (sd_content s)) ss ++ rest) =
  Ok (mkMST (mt_ch m) (mt_sectors m ++ map (fun s => sector_of (params code s)) ss), rest).
Proof.
  intros Hc. induction ss as [|s ss IH]; intros m rest H.
  - cbn [map flat_map ofold app]. rewrite app_nil_r. destruct m; reflexivity.
  - cbn [map flat_map ofold]. rewrite <- app_assoc.
    assert (Hs : forall f d, sd_content s = Plain f d -> length d = size_of code) by (intros; eapply H; [left; reflexivity|eassumption]).
    unfold imd_sector at 1. unfold entry at 1.
    assert (Ec : content_bytes (sd_content s) = marker_of (sd_content s) :: tl (content_bytes (sd_content s))) by reflexivity.
    rewrite Ec, <- app_comm_cons. rewrite marker_small, Nat2N.id, read_content by exact Hs. cbn [obind id_data id_error id_deleted].
    rewrite (proj1 (size_n code Hc)), add_plain. cbn [obind].
    rewrite IH by (intros; eapply H; [right; eassumption|eassumption]). cbn [mt_ch mt_sectors]. rewrite <- app_assoc. reflexivity.
Qed.
Lemma sectors_bwd code : forall es m rest m' r,
  Forall (fun e => snd e = N.of_nat (size_of code)) es ->
  ofold imd_sector es (m, rest) = Ok (m', r) ->
  exists ss, es = map (entry code) ss /\ rest = flat_map (fun s => content_bytes (sd_content s)) ss ++ r /\
    (forall s f d, In s ss -> sd_content s = Plain f d -> length d = size_of code).
Proof.
  induction es as [|[[[s c] h] z] es IH]; intros m rest m' r HF H.
  - cbn in H. exists []. split; [reflexivity|]. split; [cbn; congruence|intros ? ? ? []].
  - inversion HF as [|? ? Hz HF']; subst. cbn [snd] in Hz. cbn [ofold] in H. unfold imd_sector at 1 in H.
    destruct rest as [|mk rest]; [discriminate|]. destruct (8 <? mk)%N; [discriminate|].
    destruct (imd_read_data mk (N.to_nat z) rest) as [[x rest2]| |] eqn:E; cbn [obind] in H; try discriminate.
    rewrite add_plain in H. cbn [obind] in H.
    destruct (read_content_inv _ _ _ _ _ E) as (ct & -> & -> & Hl). rewrite Hz, Nat2N.id in Hl.
    destruct (IH _ _ _ _ HF' H) as (ss & -> & -> & Hs).
    exists (mkSD s c h ct :: ss). split; [cbn [map]; unfold entry at 2; cbn [sd_num sd_cyl sd_head]; rewrite Hz; reflexivity|].
    split; [cbn [flat_map sd_content]; rewrite <- app_assoc; reflexivity|].
    intros s0 f d [<-|Hi] Ed; [eapply Hl; exact Ed|eapply Hs; eassumption].
Qed.
Lemma sectors_no_panic : forall es m rest, ofold imd_sector es (m, rest) <> Panic.
Proof.
  induction es as [|[[[s c] h] z] es IH]; intros m rest; [discriminate|].
  cbn [ofold]. unfold imd_sector at 1. destruct rest as [|mk rest]; [discriminate|]. destruct (8 <? mk)%N; [discriminate|].
  destruct (imd_read_data mk (N.to_nat z) rest) as [[x rest2]| |] eqn:E; cbn [obind]; try discriminate.
  - rewrite add_plain. cbn [obind]. apply IH.
  - exfalso. exact (read_data_no_panic _ _ _ E).
Qed.

(* ---- the header byte of the head ---- *)
Definition head_byte (hd : N) (hm cm : bool) : N := (hd + (if hm then 64 else 0) + (if cm then 128 else 0))%N.
Lemma head_fields mode c n size hd hm cm : (hd < 2)%N ->
  let t := mkImd mode c (head_byte hd hm cm) n size in
  imd_h t = hd /\ imd_has_head_map t = hm /\ imd_has_cylinder_map t = cm /\ imd_has_size_map t = false /\
  (N.land (im_h t) 0x3F <? 2)%N = true.
Proof.
  intros H. assert (E : hd = 0%N \/ hd = 1%N) by lia. destruct E as [-> | ->], hm, cm; vm_compute; auto.
Qed.
Lemma head_inv h : (h < 256)%N -> (N.land h 0x3F < 2)%N -> exists hd hm cm, (hd < 2)%N /\ h = head_byte hd hm cm.
Proof.
  intros Hb H. change 0x3F%N with (N.ones 6) in H. rewrite N.land_ones in H. change (2 ^ 6)%N with 64%N in H.
  pose proof (N.div_mod h 64 ltac:(discriminate)) as E. pose proof (N.div_lt_upper_bound h 64 4 ltac:(discriminate) Hb) as Hq.
  set (q := (h / 64)%N) in *. set (a := (h mod 64)%N) in *. clearbody q a. clear Hb. exists a.
  assert (Eq : (q = 0 \/ q = 1 \/ q = 2 \/ q = 3)%N) by lia.
  destruct Eq as [->|[->|[->| ->]]]; [exists false, false|exists true, false|exists false, true|exists true, true];
    (split; [exact H|]; unfold head_byte; lia).
Qed.

(* ---- one track ---- *)
Definition header_of (t : TrackDesc) : ImdTrack :=
  mkImd (td_mode t) (td_cyl t) (head_byte (td_head t) (td_headmap t) (td_cylmap t)) (N.of_nat (length (td_sectors t))) (td_size t).
Definition body_of (t : TrackDesc) : list N :=
  map sd_num (td_sectors t)
  ++ (if td_cylmap t then map sd_cyl (td_sectors t) else [])
  ++ (if td_headmap t then map sd_head (td_sectors t) else [])
  ++ flat_map (fun s => content_bytes (sd_content s)) (td_sectors t).
Lemma track_bytes_parts t : track_bytes t =
  im_mode (header_of t) :: im_c (header_of t) :: im_h (header_of t) :: im_ct (header_of t) :: im_size (header_of t) :: body_of t.
Proof. reflexivity. Qed.
Lemma zip4_map {A} (f g h : A -> N) z l : zip4 (map f l) (map g l) (map h l) (repeat z (length l)) = map (fun x => (f x, g x, h x, z)) l.
Proof. induction l as [|x l IH]; [reflexivity|]. cbn [map length repeat zip4]. rewrite IH. reflexivity. Qed.
Lemma map_repeat {A} (f : A -> N) v l : (forall x, In x l -> f x = v) -> map f l = repeat v (length l).
Proof.
  induction l as [|x l IH]; intros H; [reflexivity|]. cbn [map length repeat]. f_equal; [apply H; left; reflexivity|].
  apply IH. intros y Hy. apply H. right. exact Hy.
Qed.
Lemma ct_small n : n < 128 -> (256 <=? N.of_nat n * 2)%N = false.
Proof. intros H. apply N.leb_gt. lia. Qed.
Lemma read_map (b : bool) (l : list N) rest v n : length l = n -> (b = false -> l = repeat v n) ->
  (if b then read_exact n ((if b then l else []) ++ rest) else Ok (repeat v n, (if b then l else []) ++ rest)) = Ok (l, rest).
Proof. intros Hl Hv. destruct b; [apply read_exact_app; exact Hl|]. rewrite (Hv eq_refl). reflexivity. Qed.

Lemma track_fwd d s t rest : valid_track t -> wf d s -> meta_only d ->
  exists d', imd_track d (header_of t) (body_of t ++ rest) = Ok (d', rest) /\ wf d' (append_to s (td_head t) (track_of t)) /\ meta_only d'.
Proof.
  intros [Hm Hh Hz Hct Hp Hc Hd] Hwf Hmeta.
  destruct (head_fields (td_mode t) (td_cyl t) (N.of_nat (length (td_sectors t))) (td_size t) (td_head t) (td_headmap t) (td_cylmap t) Hh)
    as (E1 & E2 & E3 & E4 & E5). fold (header_of t) in E1, E2, E3, E4, E5.
  unfold imd_track.
  assert (Ev : imd_valid (header_of t) = true).
  { unfold imd_valid. rewrite E5. cbn [im_mode im_size header_of]. apply N.ltb_lt in Hm. apply N.ltb_lt in Hz. rewrite Hm, Hz. reflexivity. }
  rewrite Ev. cbn [negb]. change (im_size (header_of t)) with (td_size t). rewrite (proj2 (size_n _ Hz)).
  change (im_ct (header_of t)) with (N.of_nat (length (td_sectors t))). rewrite ct_small by exact Hct. rewrite Nat2N.id.
  unfold body_of. rewrite <- !app_assoc. rewrite read_exact_app by apply map_length. cbn [obind].
  rewrite E3, E2, E1, E4. change (im_c (header_of t)) with (td_cyl t).
  rewrite (read_map (td_cylmap t) (map sd_cyl (td_sectors t))); [|apply map_length|intros Eb; apply map_repeat; exact (Hc Eb)].
  cbn [obind].
  rewrite (read_map (td_headmap t) (map sd_head (td_sectors t))); [|apply map_length|intros Eb; apply map_repeat; exact (Hd Eb)].
  cbn [obind].
  unfold add_track_metasector. cbn [ch_h]. destruct (N.leb_spec 2 (td_head t)) as [L|L]; [exfalso; clear - L Hh; lia|].
  destruct Hmeta as [Hmul Hres].
  assert (Hrej : res_rejects d RMetaSector = false) by (unfold res_rejects; rewrite Hmul; destruct Hres as [-> | ->]; reflexivity). rewrite Hrej.
  cbn [obind with_res di_pool].
  set (d0 := with_res d (res_insert RMetaSector (di_res d))).
  set (t0 := TMeta (mkMST (mkCh (td_cyl t) (td_head t)) [])).
  assert (Eo : oindex (di_pool (push_track d0 (td_head t) t0)) (length (di_pool d)) = Ok t0).
  { unfold oindex, push_track, d0, with_res. cbn [di_pool]. rewrite nth_error_app2, Nat.sub_diag by lia. reflexivity. }
  rewrite Eo. cbn [obind]. unfold t0 at 1. cbv iota.
  rewrite zip4_map. change (fun x => (sd_num x, sd_cyl x, sd_head x, N.of_nat (size_of (td_size t)))) with (entry (td_size t)).
  rewrite (sectors_fwd _ Hz) by exact Hp. cbn [obind mt_ch mt_sectors app].
  change (TMeta (mkMST (mkCh (td_cyl t) (td_head t)) (map (fun s0 => sector_of (params (td_size t) s0)) (td_sectors t)))) with (track_of t).
  assert (Epool : with_pool (push_track d0 (td_head t) t0) (upd (di_pool (push_track d0 (td_head t) t0)) (length (di_pool d)) (track_of t)) =
                  push_track d0 (td_head t) (track_of t)).
  { unfold push_track, with_pool, d0, with_res. cbn [di_pool di_multires di_res di_geom di_analysis di_map0 di_map1]. f_equal.
    generalize (track_of t). generalize (di_pool d). clear. intros l x. induction l as [|y l IH]; [reflexivity|]. cbn [length app upd]. f_equal. exact IH. }
  rewrite Epool. eexists. split; [reflexivity|]. split.
  - apply push_wf; [apply with_res_wf; exact Hwf|exact Hh].
  - split; [exact Hmul|]. unfold push_track, d0, with_res. cbn [di_res]. right. destruct Hres as [-> | ->]; reflexivity.
Qed.
