(* Td0b_proofs.v - the TeleDisk loader: sectors, tracks, file. *)
From Verif Require Import Base Base_lemmas Chs_model Types_model MetaSector_model MetaSector_spec BitStream_model
  DiskImage_model DiskImage_spec DiskImage_proofs Raw_model Raw4_proofs TreeMap_proofs Imd_model Td0_model Td0_spec Td0_proofs.
From Coq Require Import Lia.

(* ---- sizes and flags ---- *)
Lemma sizes code : N.to_nat (n_to_bytes code) = size_of code /\ bytes_to_n (N.of_nat (size_of code)) = size_code code.
Proof.
  assert (S : forallb (fun c => ((N.min 8192 ((128 * 2 ^ c) mod 2 ^ 64)) =? (if c <? 57 then 128 * 2 ^ (if c <? 6 then c else if c <? 57 then 6 else 0) else 0))
                     && (bytes_to_n (if c <? 57 then 128 * 2 ^ (if c <? 6 then c else if c <? 57 then 6 else 0) else 0) =?
                         (if c <? 6 then c else if c <? 57 then 6 else 0)))%N (map N.of_nat (seq 0 64)) = true) by (vm_compute; reflexivity).
  rewrite forallb_forall in S. specialize (S (code mod 64)%N).
  assert (Hc : In (code mod 64)%N (map N.of_nat (seq 0 64))).
  { pose proof (N.mod_lt code 64 ltac:(discriminate)) as L. apply in_map_iff. exists (N.to_nat (code mod 64)). split; [apply N2Nat.id|]. apply in_seq. lia. }
  specialize (S Hc). apply andb_prop in S as [S1 S2]. apply N.eqb_eq in S1. apply N.eqb_eq in S2.
  unfold size_of, size_code, n_to_bytes, overflowing_shl64. change MAXIMUM_SECTOR_SIZE with 8192%N. rewrite S1.
  set (c := (code mod 64)%N) in *. clearbody c. cbv zeta. destruct (c <? 57)%N; split; try rewrite N2Nat.id; try reflexivity; exact S2.
Qed.
Lemma land_bit x k : negb (N.land x (2 ^ k) =? 0)%N = N.testbit x k.
Proof.
  destruct (N.testbit x k) eqn:E.
  - destruct (N.eqb_spec (N.land x (2 ^ k)) 0) as [H|H]; auto.
    pose proof (f_equal (fun y => N.testbit y k) H) as H1. cbn beta in H1. rewrite N.land_spec, E, N.pow2_bits_true, N.bits_0 in H1. discriminate.
  - destruct (N.eqb_spec (N.land x (2 ^ k)) 0) as [H|H]; auto.
    exfalso; apply H. apply N.bits_inj; intros i. rewrite N.land_spec, N.bits_0, N.pow2_bits_eqb.
    destruct (N.eqb_spec k i) as [<-|]; [rewrite E; auto|apply andb_false_r].
Qed.
Lemma flag_data flags : (N.land flags 0x30 =? 0)%N = negb (N.testbit flags 4) && negb (N.testbit flags 5).
Proof.
  destruct (N.eqb_spec (N.land flags 0x30) 0) as [H|H].
  - pose proof (f_equal (fun y => N.testbit y 4) H) as H4. pose proof (f_equal (fun y => N.testbit y 5) H) as H5. cbn beta in H4, H5.
    rewrite N.land_spec, N.bits_0 in H4, H5. change (N.testbit 0x30 4) with true in H4. change (N.testbit 0x30 5) with true in H5.
    rewrite andb_true_r in H4, H5. rewrite H4, H5. reflexivity.
  - symmetry. apply not_true_is_false. intros E. apply H. apply andb_prop in E as [E4 E5]. apply negb_true_iff in E4, E5.
    change 0x30%N with (N.lor (2 ^ 4) (2 ^ 5)). apply N.bits_inj. intros i. rewrite N.land_spec, N.lor_spec, N.bits_0, !N.pow2_bits_eqb.
    destruct (N.eqb_spec 4 i) as [<-|]; [rewrite E4; reflexivity|]. destruct (N.eqb_spec 5 i) as [<-|]; [rewrite E5; reflexivity|apply andb_false_r].
Qed.

(* ---- the data record ---- *)
Definition code_of (x : Data) : N := match x with Plain _ => 0 | Pairs _ => 1 | Runs _ => 2 end%N.
Definition payload (x : Data) : list N :=
  match x with Plain b => b | Pairs l => flat_map pair_bytes l | Runs l => flat_map run_bytes l end.
Lemma data_bytes_eq x : data_bytes x = code_of x :: payload x. Proof. destruct x; reflexivity. Qed.
Lemma pair_bytes_len l : length l <= length (flat_map pair_bytes l).
Proof. induction l as [|p l IH]; [cbn; lia|]. cbn [flat_map length]. rewrite app_length. cbn [pair_bytes le16_bytes app length]. lia. Qed.
Lemma run_bytes_len l : length l <= length (flat_map run_bytes l).
Proof. induction l as [|e l IH]; [cbn; lia|]. cbn [flat_map length]. rewrite app_length. destruct e; cbn [run_bytes app length]; lia. Qed.
Lemma data_fwd size x rest : valid_data size x -> td0_data (code_of x) size (payload x ++ rest) = Ok (data_of x, rest).
Proof.
  destruct x as [b|l|l]; cbn [code_of payload data_of td0_data valid_data].
  - apply read_app.
  - intros [[H1 H2] _]. apply (pairs_fwd size l _ [] rest H1 H2). rewrite app_length. pose proof (pair_bytes_len l). lia.
  - intros [[H1 H2] H3]. apply (rle_fwd size l _ [] rest H1 H2 H3). rewrite app_length. pose proof (run_bytes_len l). lia.
Qed.
Lemma data_len size x : valid_data size x -> length (data_of x) = size.
Proof. destruct x as [b|l|l]; cbn [valid_data data_of]; [auto|intros [[H _] _]; exact H|intros [[H _] _]; exact H]. Qed.
Lemma data_bwd code size rest a r : bytes_ok rest = true -> td0_data code size rest = Ok (a, r) ->
  exists x, code = code_of x /\ rest = payload x ++ r /\ a = data_of x /\ valid_data size x.
Proof.
  intros Hb H. unfold td0_data in H. destruct code as [|[p|[p|p|]|]]; try discriminate.
  - apply read_inv in H as [-> H]. exists (Plain a). auto.
  - destruct (rle_bwd size _ [] _ _ _ Hb (Nat.le_0_l _) H) as (l & -> & E & Hs & Hp & HF). cbn [app] in E, Hp.
    exists (Runs l). split; [reflexivity|]. split; [reflexivity|]. split; [exact E|]. subst a. split; [split; assumption|exact HF].
  - destruct (pairs_bwd size _ [] _ _ _ Hb (Nat.le_0_l _) H) as (l & -> & E & Hs & Hp & HF). cbn [app] in E, Hp.
    exists (Pairs l). split; [reflexivity|]. split; [reflexivity|]. split; [exact E|]. subst a. split; [split; assumption|exact HF].
Qed.
Lemma data_panic code size rest : bytes_ok rest = true -> td0_data code size rest = Panic <-> code = 2%N /\ overruns size rest.
Proof.
  intros Hb. split.
  - intros H. unfold td0_data in H. destruct code as [|[p|[p|p|]|]]; try discriminate.
    + exfalso. unfold read_exact in H. destruct (_ <? _) in H; discriminate.
    + split; [reflexivity|]. destruct (rle_panic size _ [] _ Hb (Nat.le_0_l _) H) as (l & r & D). exists l, r. exact D.
    + exfalso. exact (pairs_no_panic _ _ _ _ H).
  - intros [-> (l & r & HF & Hs & Hp & D)]. unfold td0_data. refine (rle_overruns size l _ [] rest r HF Hs Hp _ D).
    pose proof (run_bytes_len l) as L. destruct D as [(n & -> & _)|(n & p & j & -> & _)]; rewrite !app_length; cbn [length run_bytes]; rewrite ?app_length; cbn [length]; lia.
Qed.

(* ---- sectors ---- *)
Lemma add_plain m id data a : mt_add_sector m (mkAddSector id data None None a false) =
  Ok (mkMST (mt_ch m) (mt_sectors m ++ [sector_of (mkAddSector id data None None a false)])).
Proof. reflexivity. Qed.
Definition loaded (s : SectorDesc) : list MetaSector := if has_data s then [sector_of (sector_params s)] else [].
Lemma sector_fwd m s rest : valid_sector s -> td0_sector m (sector_bytes s ++ rest) = Ok (mkMST (mt_ch m) (mt_sectors m ++ loaded s), rest).
Proof.
  intros Hv. unfold sector_bytes, loaded. cbn [app td0_sector]. rewrite flag_data. fold (has_data s).
  destruct (has_data s) eqn:E; [|cbn [app]; rewrite app_nil_r; destruct m; reflexivity].
  destruct (Hv E) as [Hd Hc]. rewrite data_bytes_eq. cbn [app]. rewrite (proj1 (sizes _)), data_fwd by exact Hd. cbn [obind].
  rewrite (data_len _ _ Hd), (proj2 (sizes _)). unfold as_u8. rewrite <- Hc, N.eqb_refl. rewrite add_plain. cbn [obind].
  change 2%N with (2 ^ 1)%N at 1. change 4%N with (2 ^ 2)%N at 1. rewrite !land_bit. reflexivity.
Qed.
Lemma sectors_fwd : forall ss m rest, Forall valid_sector ss ->
  td0_sectors (length ss) m (flat_map sector_bytes ss ++ rest) =
  Ok (mkMST (mt_ch m) (mt_sectors m ++ map (fun s => sector_of (sector_params s)) (filter has_data ss)), rest).
Proof.
  induction ss as [|s ss IH]; intros m rest HF.
  - cbn. rewrite app_nil_r. destruct m; reflexivity.
  - inversion HF as [|? ? Hv HF']; subst. cbn [length td0_sectors flat_map]. rewrite <- app_assoc, sector_fwd by exact Hv. cbn [obind].
    rewrite IH by exact HF'. cbn [mt_ch mt_sectors]. rewrite <- app_assoc. f_equal. f_equal. f_equal. f_equal.
    unfold loaded. cbn [filter]. destruct (has_data s); reflexivity.
Qed.
(* the outcomes of one sector *)
Lemma sector_cases m rest o : bytes_ok rest = true -> td0_sector m rest = o ->
  (exists s r, valid_sector s /\ rest = sector_bytes s ++ r /\ o = Ok (mkMST (mt_ch m) (mt_sectors m ++ loaded s), r)) \/
  (exists e, o = Err e) \/
  (o = Panic /\ exists c h s z f k l0 l1 r, rest = [c; h; s; z; f; k; l0; l1; 2%N] ++ r /\ N.testbit f 4 = false /\ N.testbit f 5 = false /\ overruns (size_of z) r).
Proof.
  intros Hb H.
  destruct rest as [|c [|h [|s [|z [|f [|k rest]]]]]]; try (right; left; exists IoError; symmetry; exact H).
  cbn [td0_sector] in H. rewrite flag_data in H.
  destruct (negb (N.testbit f 4) && negb (N.testbit f 5)) eqn:E.
  - destruct rest as [|l0 [|l1 [|e rest]]]; try (right; left; exists IoError; symmetry; exact H).
    assert (Hb2 : bytes_ok rest = true).
    { do 9 (apply bytes_ok_cons in Hb as [_ Hb]). exact Hb. }
    rewrite (proj1 (sizes z)) in H.
    destruct (td0_data e (size_of z) rest) as [[data r]|x|] eqn:Ed; cbn [obind] in H.
    + destruct (data_bwd _ _ _ _ _ Hb2 Ed) as (x & -> & -> & -> & Hv).
      destruct (N.eqb_spec k (as_u8 (td0_crc (data_of x) 0))) as [Ek|Ek]; [|right; left; exists ImageCorruptError; symmetry; exact H].
      left. exists (mkSD c h s z f k (l0, l1) x), r.
      assert (Eh : has_data (mkSD c h s z f k (l0, l1) x) = true) by exact E.
      assert (V : valid_sector (mkSD c h s z f k (l0, l1) x)) by (intros _; cbn [sd_size sd_data sd_crc]; split; [exact Hv|exact Ek]).
      split; [exact V|]. 
      assert (Er : c :: h :: s :: z :: f :: k :: l0 :: l1 :: code_of x :: payload x ++ r = sector_bytes (mkSD c h s z f k (l0, l1) x) ++ r).
      { unfold sector_bytes. rewrite Eh. cbn [sd_cyl sd_head sd_num sd_size sd_flags sd_crc sd_len sd_data fst snd app]. rewrite data_bytes_eq. reflexivity. }
      split; [exact Er|].
      rewrite <- (sector_fwd m _ r V), <- Er, <- H. cbn [td0_sector]. rewrite flag_data, E, (proj1 (sizes z)), Ed. cbn [obind].
      rewrite (proj2 (N.eqb_eq _ _) Ek). reflexivity.
    + right; left. exists x. symmetry. exact H.
    + right; right. split; [congruence|]. apply (data_panic _ _ _ Hb2) in Ed as [-> Ho]. apply andb_prop in E as [E4 E5]. apply negb_true_iff in E4, E5.
      exists c, h, s, z, f, k, l0, l1, rest. auto.
  - left. exists (mkSD c h s z f k (0%N, 0%N) (Plain [])), rest. unfold valid_sector, sector_bytes, loaded. unfold has_data at 1 2 3. cbn [sd_flags]. rewrite E.
    cbn [sd_cyl sd_head sd_num sd_size sd_flags sd_crc app]. rewrite app_nil_r. split; [discriminate|]. split; [reflexivity|].
    rewrite <- H. destruct m; reflexivity.
Qed.
Lemma sectors_cases : forall n m rest o, bytes_ok rest = true -> td0_sectors n m rest = o ->
  (exists ss r, length ss = n /\ Forall valid_sector ss /\ rest = flat_map sector_bytes ss ++ r /\
     o = Ok (mkMST (mt_ch m) (mt_sectors m ++ map (fun s => sector_of (sector_params s)) (filter has_data ss)), r)) \/
  (exists e, o = Err e) \/
  (o = Panic /\ exists ss c h s z f k l0 l1 r, length ss < n /\ Forall valid_sector ss /\
     rest = flat_map sector_bytes ss ++ [c; h; s; z; f; k; l0; l1; 2%N] ++ r /\ N.testbit f 4 = false /\ N.testbit f 5 = false /\ overruns (size_of z) r).
Proof.
  induction n as [|n IH]; intros m rest o Hb H; cbn [td0_sectors] in H.
  - left. exists [], rest. split; [reflexivity|]. split; [constructor|]. split; [reflexivity|]. cbn [filter map]. rewrite app_nil_r. rewrite <- H. destruct m; reflexivity.
  - destruct (td0_sector m rest) as [[m1 r1]|e|] eqn:E; cbn [obind] in H.
    + destruct (sector_cases _ _ _ Hb E) as [(s & r & Hv & -> & Eo)|[[e Ee]|[Ee _]]]; try discriminate.
      assert (m1 = mkMST (mt_ch m) (mt_sectors m ++ loaded s)) by congruence. assert (r1 = r) by congruence. subst r1 m1.
      rewrite bytes_ok_app in Hb. apply andb_prop in Hb as [_ Hb2].
      destruct (IH _ _ _ Hb2 H) as [(ss & r2 & Hl & HF & -> & Eo2)|[X|[Ep (ss & c & h & sn & z & f & k & l0 & l1 & r2 & Hl & HF & -> & Q)]]].
      * left. exists (s :: ss), r2. split; [cbn [length]; lia|]. split; [constructor; assumption|]. split; [cbn [flat_map]; rewrite <- app_assoc; reflexivity|].
        rewrite Eo2. cbn [mt_ch mt_sectors]. rewrite <- app_assoc. f_equal. f_equal. f_equal. f_equal.
        unfold loaded. cbn [filter]. destruct (has_data s); reflexivity.
      * right; left. exact X.
      * right; right. split; [exact Ep|]. exists (s :: ss), c, h, sn, z, f, k, l0, l1, r2. split; [cbn [length]; lia|]. split; [constructor; assumption|].
        split; [cbn [flat_map]; rewrite <- app_assoc; reflexivity|exact Q].
    + right; left. exists e. congruence.
    + right; right. split; [congruence|]. destruct (sector_cases _ _ _ Hb E) as [(s & r & Hv & -> & Eo)|[[e Ee]|[_ X]]]; try discriminate.
      destruct X as (c & h & sn & z & f & k & l0 & l1 & r2 & -> & Q). exists [], c, h, sn, z, f, k, l0, l1, r2.
      split; [cbn; lia|]. split; [constructor|]. split; [reflexivity|exact Q].
Qed.

(* ---- adding a track of sectors ---- *)
Lemma add_meta d s c h : wf d s -> meta_only d -> (h < 2)%N ->
  exists d1 ti, add_track_metasector d (mkCh c h) = (d1, Ok ti) /\ oindex (di_pool d1) ti = Ok (TMeta (mkMST (mkCh c h) [])) /\
    forall m, wf (with_pool d1 (upd (di_pool d1) ti (TMeta m))) (append_to s h (TMeta m)) /\ meta_only (with_pool d1 (upd (di_pool d1) ti (TMeta m))).
Proof.
  intros Hwf [Hmul Hres] Hh. unfold add_track_metasector. cbn [ch_h]. destruct (N.leb_spec 2 h) as [L|L]; [exfalso; clear - L Hh; lia|].
  assert (Hrej : res_rejects d RMetaSector = false) by (unfold res_rejects; rewrite Hmul; destruct Hres as [-> | ->]; reflexivity). rewrite Hrej.
  set (d0 := with_res d (res_insert RMetaSector (di_res d))). set (t0 := TMeta (mkMST (mkCh c h) [])).
  exists (push_track d0 h t0), (length (di_pool d)). split; [reflexivity|]. split.
  - unfold oindex, push_track, d0, with_res. cbn [di_pool]. rewrite nth_error_app2, Nat.sub_diag by lia. reflexivity.
  - intros m. assert (Epool : with_pool (push_track d0 h t0) (upd (di_pool (push_track d0 h t0)) (length (di_pool d)) (TMeta m)) = push_track d0 h (TMeta m)).
    { unfold push_track, with_pool, d0, with_res. cbn [di_pool di_multires di_res di_geom di_analysis di_map0 di_map1]. f_equal.
      generalize (TMeta m). generalize (di_pool d). clear. intros l x. induction l as [|y l IH]; [reflexivity|]. cbn [length app upd]. f_equal. exact IH. }
    rewrite Epool. split; [apply push_wf; [apply with_res_wf; exact Hwf|exact Hh]|].
    split; [exact Hmul|]. unfold push_track, d0, with_res. cbn [di_res]. right. destruct Hres as [-> | ->]; reflexivity.
Qed.
Lemma add_meta_bad d c h : (2 <= h)%N -> exists d1 e, add_track_metasector d (mkCh c h) = (d1, Err e).
Proof. intros H. unfold add_track_metasector. cbn [ch_h]. replace (2 <=? h)%N with true by (symmetry; apply N.leb_le; exact H). eexists _, _. reflexivity. Qed.

(* ---- the tracks ---- *)
Definition add_all (s : Heads) (ts : list TrackDesc) : Heads := fold_left (fun s t => append_to s (td_head t) (track_of t)) ts s.
Definition cyls_all (cs : list N) (ts : list TrackDesc) : list N := fold_left (fun s t => set_add (td_cyl t) s) ts cs.
Lemma count_ok t : length (td_sectors t) < 255 -> (N.of_nat (length (td_sectors t)) =? 0xFF)%N = false.
Proof. intros H. apply N.eqb_neq. lia. Qed.
Lemma track_step fuel d s cyls t rest : valid_track t -> wf d s -> meta_only d ->
  exists d', td0_loop (S fuel) d cyls (track_bytes t ++ rest) = td0_loop fuel d' (set_add (td_cyl t) cyls) rest /\
    wf d' (append_to s (td_head t) (track_of t)) /\ meta_only d'.
Proof.
  intros [Hct Hh HF] Hwf Hm. destruct (add_meta d s (td_cyl t) (td_head t) Hwf Hm Hh) as (d1 & ti & Ea & Eo & W).
  unfold track_bytes, track_header. cbn [app td0_loop]. rewrite count_ok by exact Hct. fold (track_header t). unfold as_u8. rewrite N.eqb_refl. cbn [negb].
  rewrite Ea. cbn [obind]. rewrite Eo. cbn [obind]. rewrite Nat2N.id, sectors_fwd by exact HF. cbn [obind mt_ch mt_sectors app].
  eexists. split; [reflexivity|]. exact (W _).
Qed.
Lemma loop_end fuel d cyls tail : ends tail -> td0_loop fuel d cyls tail = Ok (d, cyls).
Proof.
  intros [H|[r ->]].
  - destruct fuel; [reflexivity|]. destruct tail as [|? [|? [|? [|]]]]; try reflexivity. cbn [length] in H. lia.
  - destruct fuel; [reflexivity|]. destruct r as [|? [|? [|]]]; reflexivity.
Qed.
Lemma track_bytes_len t : 4 <= length (track_bytes t).
Proof. unfold track_bytes, track_header. cbn [app length]. lia. Qed.
Lemma loop_fwd : forall ts fuel d s cyls tail, Forall valid_track ts -> wf d s -> meta_only d -> ends tail -> length ts <= fuel ->
  exists d', td0_loop fuel d cyls (flat_map track_bytes ts ++ tail) = Ok (d', cyls_all cyls ts) /\ wf d' (add_all s ts) /\ meta_only d'.
Proof.
  induction ts as [|t ts IH]; intros fuel d s cyls tail HF Hwf Hm Ht Hf.
  - exists d. cbn [flat_map app]. rewrite loop_end by exact Ht. auto.
  - inversion HF as [|? ? Hv HF']; subst. cbn [length] in Hf. destruct fuel as [|fuel]; [lia|]. cbn [flat_map]. rewrite <- app_assoc.
    destruct (track_step fuel d s cyls t (flat_map track_bytes ts ++ tail) Hv Hwf Hm) as (d1 & E & W & M). rewrite E.
    destruct (IH fuel d1 _ (set_add (td_cyl t) cyls) tail HF' W M Ht) as (d2 & E2 & W2 & M2); [lia|]. exists d2. auto.
Qed.
(* where a panic comes from *)
Definition bad_tail (rest : list N) : Prop :=
  exists n c h ss i0 i1 i2 z f k l0 l1 r, (n < 255)%N /\ (h < 2)%N /\ (N.of_nat (length ss) < n)%N /\ Forall valid_sector ss /\
    rest = [n; c; h; (td0_crc [n; c; h] 0 mod 256)%N] ++ flat_map sector_bytes ss ++ [i0; i1; i2; z; f; k; l0; l1; 2%N] ++ r /\
    N.testbit f 4 = false /\ N.testbit f 5 = false /\ overruns (size_of z) r.
Lemma loop_cases : forall fuel d s cyls rest o, wf d s -> meta_only d -> length rest <= fuel -> bytes_ok rest = true ->
  td0_loop fuel d cyls rest = o ->
  (exists ts tail, rest = flat_map track_bytes ts ++ tail /\ ends tail /\ Forall valid_track ts /\ exists d' c', o = Ok (d', c')) \/
  (exists e, o = Err e) \/
  (o = Panic /\ exists ts tail, rest = flat_map track_bytes ts ++ tail /\ Forall valid_track ts /\ bad_tail tail).
Proof.
  induction fuel as [fuel IH] using lt_wf_ind. intros d s cyls rest o Hwf Hm Hf Hb H.
  assert (Z : ends rest -> (exists ts tail, rest = flat_map track_bytes ts ++ tail /\ ends tail /\ Forall valid_track ts /\ exists d' c', o = Ok (d', c'))).
  { intros He. exists [], rest. split; [reflexivity|]. split; [exact He|]. split; [constructor|]. rewrite loop_end in H by exact He. eexists _, _. symmetry. exact H. }
  destruct rest as [|n [|c [|h [|crc rest]]]]; try (left; apply Z; left; cbn; lia).
  destruct (N.eqb_spec n 0xFF) as [->|Hn]; [left; apply Z; right; eexists; reflexivity|].
  destruct fuel as [|fuel]; [cbn in Hf; lia|]. cbn [td0_loop] in H. rewrite (proj2 (N.eqb_neq _ _) Hn) in H.
  destruct (N.eqb_spec crc (as_u8 (td0_crc [n; c; h] 0))) as [Ec|Ec]; cbn [negb] in H; [|right; left; eexists; symmetry; exact H].
  destruct (N.lt_ge_cases h 2) as [Hh|Hh].
  2: { destruct (add_meta_bad d c h Hh) as (d1 & e & Ea). rewrite Ea in H. cbn [obind] in H. right; left. exists e. congruence. }
  destruct (add_meta d s c h Hwf Hm Hh) as (d1 & ti & Ea & Eo & W). rewrite Ea in H. cbn [obind] in H. rewrite Eo in H. cbn [obind] in H.
  destruct (bytes_ok_cons _ _ Hb) as [Bn Hb1]. apply bytes_ok_cons in Hb1 as [_ Hb1]. apply bytes_ok_cons in Hb1 as [_ Hb1]. apply bytes_ok_cons in Hb1 as [_ Hb1].
  destruct (td0_sectors (N.to_nat n) (mkMST (mkCh c h) []) rest) as [[m r]|e|] eqn:E; cbn [obind] in H.
  - destruct (sectors_cases _ _ _ _ Hb1 E) as [(ss & r2 & Hl & HF & -> & Eo2)|[[e Ee]|[Ee _]]]; try discriminate.
    cbn [mt_ch mt_sectors app] in Eo2. set (t := mkTD c h ss).
    assert (r2 = r) by congruence. subst r2. assert (Em : TMeta m = track_of t) by (unfold track_of, t; cbn [td_cyl td_head td_sectors]; congruence).
    destruct (W m) as [W1 M1].
    assert (Hb2 : bytes_ok r = true) by (rewrite bytes_ok_app in Hb1; apply andb_prop in Hb1 as [_ Hb1]; exact Hb1).
    assert (Hl2 : length r <= fuel) by (cbn [length] in Hf; rewrite app_length in Hf; lia).
    assert (Hv : valid_track t) by (constructor; unfold t; cbn [td_sectors td_head]; [clear - Hl Bn Hn; lia|exact Hh|exact HF]).
    assert (Et : n :: c :: h :: crc :: flat_map sector_bytes ss ++ r = track_bytes t ++ r).
    { unfold track_bytes, track_header, t. cbn [td_cyl td_head td_sectors app]. rewrite Hl, N2Nat.id, Ec. reflexivity. }
    destruct (IH fuel ltac:(lia) _ _ _ _ _ W1 M1 Hl2 Hb2 H) as [(ts & tail & -> & He & HFt & X)|[X|[Ep (ts & tail & -> & HFt & X)]]].
    + left. exists (t :: ts), tail. rewrite Et. cbn [flat_map]. rewrite <- app_assoc. split; [reflexivity|]. split; [exact He|]. split; [constructor; assumption|exact X].
    + right; left. exact X.
    + right; right. split; [exact Ep|]. exists (t :: ts), tail. rewrite Et. cbn [flat_map]. rewrite <- app_assoc. split; [reflexivity|]. split; [constructor; assumption|exact X].
  - right; left. exists e. congruence.
  - right; right. split; [congruence|]. destruct (sectors_cases _ _ _ _ Hb1 E) as [(ss & r2 & Hl & HF & -> & Eo2)|[[e Ee]|[_ X]]]; try discriminate.
    destruct X as (ss & i0 & i1 & i2 & z & f & k & l0 & l1 & r2 & Hl & HF & -> & Q).
    exists [], (n :: c :: h :: crc :: flat_map sector_bytes ss ++ [i0; i1; i2; z; f; k; l0; l1; 2%N] ++ r2). split; [reflexivity|]. split; [constructor|].
    exists n, c, h, ss, i0, i1, i2, z, f, k, l0, l1, r2. split; [clear - Bn Hn; lia|]. split; [exact Hh|]. split; [clear - Hl; lia|]. split; [exact HF|].
    split; [rewrite Ec; reflexivity|exact Q].
Qed.
Lemma sectors_bad : forall ss n m rest, Forall valid_sector ss -> length ss < n -> (forall m', td0_sector m' rest = Panic) ->
  td0_sectors n m (flat_map sector_bytes ss ++ rest) = Panic.
Proof.
  induction ss as [|s ss IH]; intros n m rest HF Hl H; (destruct n as [|n]; [cbn in Hl; lia|]); cbn [flat_map td0_sectors].
  - cbn [app]. rewrite H. reflexivity.
  - inversion HF as [|? ? Hv HF']; subst. rewrite <- app_assoc, sector_fwd by exact Hv. cbn [obind]. apply IH; [exact HF'|cbn [length] in Hl; lia|exact H].
Qed.
Lemma loop_bad : forall ts fuel d s cyls tail, Forall valid_track ts -> wf d s -> meta_only d -> bytes_ok tail = true -> bad_tail tail -> length ts < fuel ->
  td0_loop fuel d cyls (flat_map track_bytes ts ++ tail) = Panic.
Proof.
  induction ts as [|t ts IH]; intros fuel d s cyls tail HF Hwf Hm Hb Ht Hf; (destruct fuel as [|fuel]; [cbn in Hf; lia|]).
  - destruct Ht as (n & c & h & ss & i0 & i1 & i2 & z & f & k & l0 & l1 & r & Hn & Hh & Hl & HFs & -> & F4 & F5 & Ho).
    cbn [flat_map app td0_loop]. replace (n =? 0xFF)%N with false by (symmetry; apply N.eqb_neq; lia). unfold as_u8. rewrite N.eqb_refl. cbn [negb].
    destruct (add_meta d s c h Hwf Hm Hh) as (d1 & ti & Ea & Eo & W). rewrite Ea. cbn [obind]. rewrite Eo. cbn [obind].
    match goal with |- obind (td0_sectors ?n ?m (_ ++ ?r)) _ = _ => assert (Eb : td0_sectors n m (flat_map sector_bytes ss ++ r) = Panic) end.
    { apply sectors_bad; [exact HFs|clear - Hl; lia|]. intros m'. cbn [td0_sector]. rewrite flag_data, F4, F5. cbn [negb andb].
      rewrite (proj1 (sizes z)). 
      assert (Hbr : bytes_ok r = true).
      { rewrite !bytes_ok_app in Hb. apply andb_prop in Hb as [_ Hb]. apply andb_prop in Hb as [_ Hb]. apply andb_prop in Hb as [_ Hb]. exact Hb. }
      rewrite (proj2 (data_panic 2 (size_of z) r Hbr) (conj eq_refl Ho)). reflexivity. }
    rewrite Eb. reflexivity.
  - inversion HF as [|? ? Hv HF']; subst. cbn [flat_map]. rewrite <- app_assoc.
    destruct (track_step fuel d s cyls t (flat_map track_bytes ts ++ tail) Hv Hwf Hm) as (d1 & E & W & M). rewrite E.
    apply (IH fuel d1 _ _ tail HF' W M Hb Ht). cbn [length] in Hf. lia.
Qed.
Lemma add_all_heads : forall ts s, Forall valid_track ts ->
  add_all s ts = (fst s ++ fst (heads_of ts), snd s ++ snd (heads_of ts)).
Proof.
  induction ts as [|t ts IH]; intros s HF; [unfold add_all, heads_of; cbn; rewrite !app_nil_r; destruct s; reflexivity|].
  inversion HF as [|? ? Hv HF']; subst. unfold add_all in *. cbn [fold_left]. rewrite IH by exact HF'.
  pose proof (vt_head _ Hv) as Hh. assert (E : td_head t = 0%N \/ td_head t = 1%N) by lia.
  unfold heads_of. cbn [filter fst snd]. destruct E as [-> | ->]; change (0 =? 0)%N with true; change (0 =? 1)%N with false;
    change (1 =? 0)%N with false; change (1 =? 1)%N with true; cbn [append_to map fst snd]; rewrite <- app_assoc; reflexivity.
Qed.
Lemma cyls_spec : forall ts cs, NoDup cs -> NoDup (cyls_all cs ts) /\ (forall x, In x (cyls_all cs ts) <-> In x cs \/ In x (map td_cyl ts)).
Proof.
  induction ts as [|t ts IH]; intros cs Hn.
  - unfold cyls_all. cbn. split; [exact Hn|]. intros x. tauto.
  - unfold cyls_all. cbn [fold_left]. fold (cyls_all (set_add (td_cyl t) cs) ts).
    assert (S : NoDup (set_add (td_cyl t) cs) /\ (forall x, In x (set_add (td_cyl t) cs) <-> In x cs \/ x = td_cyl t)).
    { unfold set_add. destruct (existsb (N.eqb (td_cyl t)) cs) eqn:E.
      - apply existsb_exists in E as (y & Hy & Ey). apply N.eqb_eq in Ey. subst y. split; [exact Hn|]. intros x. split; [auto|]. intros [H| ->]; auto.
      - split.
        + apply NoDup_app_intro; [exact Hn|constructor; [intros []|constructor]|]. intros x H1 [<-|[]].
          assert (existsb (N.eqb (td_cyl t)) cs = true); [|congruence]. apply existsb_exists. exists (td_cyl t). split; [exact H1|apply N.eqb_refl].
        + intros x. rewrite in_app_iff. cbn [In]. split; [intros [H|[H|[]]]; auto|intros [H|H]; auto]. }
    destruct S as [S1 S2]. destruct (IH _ S1) as [A B]. split; [exact A|]. intros x. rewrite B, S2. cbn [map In]. split; intros; intuition.
Qed.
Lemma cyls_count ts : length (cyls_all [] ts) = length (cylinders_of ts).
Proof.
  destruct (cyls_spec ts [] (NoDup_nil _)) as [A B]. apply Nat.le_antisymm; apply NoDup_incl_length; try exact A; try apply NoDup_nodup; intros x Hx.
  - apply B in Hx as [[]|Hx]. apply nodup_In. exact Hx.
  - apply B. right. apply nodup_In in Hx. exact Hx.
Qed.
