(* Total_props.v - C72: making a bit track of any cells. *)
From Verif Require Import Base Base_lemmas Chs_model BitRing_model Mfm_model Types_model System34_model MetaSector_model BitStream_model DiskImage_model DiskImage_spec Raw_model Pce_model Pce_spec Pce3_proofs Flux_model Flux_spec Pll_spec Pll_model Layout_spec Hist_model Hist_spec Hist_props
  Tc_model Tc_spec Tc_props Hxc_model Hxc_spec Hfe_props Hxm_props Scp_model Scp_spec Scp_props Mfi_model Mfi_spec Mfi_props Total_spec Total_proofs.
From Coq Require Import QArith Lia Lqa.
Import ListNotations.
Local Close Scope Q_scope.
Local Open Scope nat_scope.

(* Making a track succeeds, and it has exactly the cells given, unless its first mark is at the first cell. *)
Theorem C72_new : forall rnd ch data weak ct detect, data <> [] \/ ct <> None -> match weak with Some w => length w = length data /\ data <> [] | None => True end ->
  (~ mark_first (input_cells data ct) /\ exists t, bt_new rnd ch data weak ct detect = Ok t /\ cells t = input_cells data ct) \/
  (mark_first (input_cells data ct) /\ bt_new rnd ch data weak ct detect = Panic).
Proof. intros rnd ch data weak ct dw H W. destruct (new_total rnd ch data weak ct dw H W) as [A|(M & t & E & C & _)]; [right; exact A|left; split; [exact M|exists t; split; [exact E|exact C]]]. Qed.
(* Only a weak mask of another length, or no data and no length, are errors. *)
Theorem C72_errors : forall rnd ch data weak ct detect e, bt_new rnd ch data weak ct detect = Err e ->
  e = ParameterError /\ ((exists w, weak = Some w /\ length w <> length data) \/ (data = [] /\ ct = None)).
Proof.
  intros rnd ch data weak ct dw e E. destruct (match weak with Some w => negb (length data =? length w) | None => false end) eqn:M.
  - unfold bt_new in E. rewrite M in E. split; [congruence|]. left. destruct weak as [w|]; [|discriminate]. exists w. split; [reflexivity|]. apply negb_true_iff, Nat.eqb_neq in M. lia.
  - assert (NE : data <> [] \/ ct <> None -> match weak with Some w => length w = length data /\ data <> [] | None => True end -> False).
    { intros A B. destruct (C72_new rnd ch data weak ct dw A B) as [(_ & t & X & _)|[_ X]]; rewrite X in E; discriminate E. }
    destruct data as [|d0 data].
    + destruct ct as [n|]; [|unfold bt_new in E; rewrite M in E; split; [exact (f_equal (fun o => match o with Err x => x | _ => e end) (eq_sym E))|right; split; reflexivity]]. exfalso. destruct weak as [w|]; [|apply NE; [right; discriminate|exact I]].
      destruct w; [|discriminate M]. unfold bt_new in E. cbn [length Nat.eqb negb obind option_map flat_map] in E. unfold mfm_new in E. set (l := map (fun i => i mod 2 =? 0) (seq 0 n)) in *. assert (Ll : length (firstn n l) = n) by (unfold l; rewrite firstn_length, map_length, seq_length; lia). cbn [length] in E. rewrite Ll in E. destruct (Nat.ltb_spec 0 n) as [B|B]; [discriminate E|].
      assert (n = 0) by lia. subst n. cbn [obind] in E. rewrite empty_scan in E by reflexivity. discriminate E.
    + exfalso. apply NE; [left; discriminate|]. destruct weak as [w|]; [|exact I]. split; [|discriminate]. apply negb_false_iff, Nat.eqb_eq in M. symmetry. exact M.
Qed.
Lemma new_ok rnd (ch : DiskCh) data ct dw : data <> [] \/ ct <> None -> ~ mark_first (input_cells data ct) -> exists ch' t, bt_new rnd ch' data None ct dw = Ok t.
Proof. intros H M. destruct (C72_new rnd ch data None ct dw H I) as [(_ & t & E & _)|[X _]]; [exists ch, t; exact E|contradiction]. Qed.

(* ---- files of bit tracks whose first mark is not at the first cell always load ---- *)
Theorem C72_hfe : forall rnd file, bytes_ok file = true -> hfe_file file ->
  (forall i h, i < hfe_count file -> h < hfe_heads file -> 2 <= hfe_len file i /\ ~ mark_first (hfe_loaded_cells file i h)) ->
  exists d' s', hfe_load_image rnd di_default file = Ok d' /\ maps_valid d' /\ shows d' s' /\
    forall i h, i < hfe_count file -> h < hfe_heads file -> exists t, nth_error (side s' (N.of_nat h)) i = Some (TBit t) /\ cells t = hfe_loaded_cells file i h.
Proof.
  intros rnd file Hb V H. destruct (C55_load rnd file Hb V) as (d' & s' & E & MV & Sh & _ & _ & _ & T).
  - intros i h Hi Hh. destruct (H i h Hi Hh) as [L M]. apply (new_ok _ (mkCh 0 0)).
    + left. unfold hfe_bytes. intros X. apply (f_equal (@length N)) in X. rewrite map_length, seq_length in X. cbn in X. apply Nat.div_small_iff in X; lia.
    + assert (Ei : input_cells (hfe_bytes file i h) None = hfe_loaded_cells file i h); [|rewrite Ei; exact M]. unfold input_cells. destruct (hfe_bytes file i h) eqn:Eb; rewrite <- Eb; exact (bits_loaded file i h Hb).
  - exists d', s'. split; [exact E|]. split; [exact MV|]. split; [exact Sh|]. intros i h Hi Hh. destruct (T i h Hi Hh) as (t & A & _ & B). exists t. split; [exact A|exact B].
Qed.
Theorem C72_hxm : forall rnd file, bytes_ok file = true -> hxm_file file ->
  (forall i, i < hxm_count file -> 1 <= length (hxm_data file i) /\ ~ mark_first (hxm_cells file i)) ->
  exists d' s', hxm_load_image rnd di_default file = Ok d' /\ maps_valid d' /\ shows d' s' /\
    forall i, i < hxm_count file -> exists t, nth_error (side s' (hxm_side file i)) (hxm_rank file i) = Some (TBit t) /\ cells t = hxm_cells file i.
Proof.
  intros rnd file Hb V H. destruct (C54_load rnd file Hb V) as (d' & s' & E & MV & Sh & _ & _ & T).
  - intros i Hi. destruct (H i Hi) as [L M]. apply (new_ok _ (mkCh 0 0)); [left; intros X; rewrite X in L; cbn in L; lia|]. unfold hxm_cells in M. unfold input_cells. destruct (hxm_data file i) as [|x l]; [cbn in L; lia|exact M].
  - exists d', s'. split; [exact E|]. split; [exact MV|]. split; [exact Sh|]. intros i Hi. destruct (T i Hi) as (t & A & _ & B). exists t. split; [exact A|exact B].
Qed.
Theorem C72_tc : forall rnd file used sides, tc_file file used sides -> let n := 2 * (used / 2) in
  (forall i, i < n -> 1 <= length (tc_data file i) /\ ~ mark_first (flat_map byte_bits (tc_data file i))) ->
  exists d' s', tc_load_image rnd di_default file = Ok d' /\ maps_valid d' /\ shows d' s' /\
    forall i, i < n -> exists t, nth_error (side s' (N.of_nat (i mod sides))) (i / sides) = Some (TBit t) /\ tc_holds t (tc_data file i).
Proof.
  intros rnd file used sides V n H. destruct (C53_load rnd file used sides V) as (d' & s' & E & MV & Sh & _ & _ & _ & T).
  - intros i Hi. destruct (H i Hi) as [L M]. apply (new_ok _ (mkCh 0 0)); [left; intros X; rewrite X in L; cbn in L; lia|]. unfold input_cells. destruct (tc_data file i) as [|x l]; [cbn in L; lia|exact M].
  - exists d', s'. split; [exact E|]. split; [exact MV|]. split; [exact Sh|]. intros i Hi. destruct (T i Hi) as (t & A & _ & B). exists t. split; [exact A|exact B].
Qed.
(* A file that makes the TransCopy loader panic has a track with a mark at the first cell. *)
Theorem C72_tc_panic : forall rnd file, tc_load_image rnd di_default file = Panic -> exists i, mark_first (flat_map byte_bits (tc_data file i)).
Proof.
  intros rnd file E. destruct (C53_panic rnd file E) as (i & ch & X). exists i. destruct (tc_data file i) as [|x l] eqn:D; [discriminate X|]. assert (NE : x :: l <> [] \/ @None nat <> None) by (left; discriminate). destruct (C72_new (rnd_bit rnd) ch (x :: l) None None true NE I) as [(_ & t & Y & _)|[M _]].
  - rewrite X in Y. discriminate Y.
  - unfold input_cells in M. exact M.
Qed.

(* ---- flux files of standard tracks ---- *)
Lemma cells_input bits : input_cells (to_bytes bits) (Some (length bits)) = bits.
Proof.
  unfold input_cells. destruct (to_bytes bits) as [|x l] eqn:E; [apply to_bytes_nil in E; rewrite E; reflexivity|]. rewrite <- E. apply to_bytes_first.
Qed.
Lemma bits_new rnd ch bits : ~ mark_first bits -> exists t, bt_new rnd ch (to_bytes bits) None (Some (length bits)) false = Ok t /\ cells t = bits.
Proof.
  intros M. assert (NE : to_bytes bits <> [] \/ Some (length bits) <> None) by (right; discriminate). pose proof (C72_new rnd ch (to_bytes bits) None (Some (length bits)) false NE I) as H. rewrite (cells_input bits) in H. destruct H as [(_ & t & E & C)|[X _]]; [exists t; split; [exact E|exact C]|contradiction].
Qed.
Lemma omapM_ok {A B} (f : A -> outcome B) : forall l, (forall a, In a l -> exists b, f a = Ok b) -> exists bs, omapM f l = Ok bs.
Proof.
  induction l as [|a l IH]; intros H; [eexists; reflexivity|]. cbn [omapM]. destruct (H a (or_introl eq_refl)) as [b E]. rewrite E. cbn [obind]. destruct IH as [bs E2]; [intros; apply H; right; assumption|]. rewrite E2. eexists. reflexivity.
Qed.
Theorem C72_scp : forall rd u fuel rnd fm sec file n heads revs rs gaps, rounds_rel rd u -> (0 <= u <= 1 # 9007199254740992)%Q -> 4 <= fuel ->
  scp_file file n heads revs -> 1 <= revs -> (forall i, i < n -> scp_revolutions 65535 file revs i (rs i)) ->
  (forall i r rev, i < n -> nth_error (rs i) r = Some rev -> standard_revolution sec (gaps i r) rev /\ length (gaps i r) = length (gaps i 0) /\ ~ mark_first (cells_of (gaps i r))) ->
  exists d' s', scp_load_image (decode_revolutions rd fuel rnd fm None None sec) di_default file = Ok d' /\ maps_valid d' /\ shows d' s' /\
    forall i, i < n -> exists f b r, nth_error (side s' (N.of_nat (i mod heads))) (i / heads) = Some (TFlux f) /\ ft_bitstream f = Ok (Some b) /\ r < revs /\ cells b = cells_of (gaps i r).
Proof.
  intros rd u fuel rnd fm sec file n heads revs rs gaps R Hu Hf V Hr HR HS. set (dec := decode_revolutions rd fuel rnd fm None None sec).
  assert (HB : forall i, i < n -> exists bs, dec (ch_at heads i) (synthesize (rs i)) = Ok bs).
  { intros i Hi. assert (Es : synthesize (rs i) = rs i).
    { apply (no_synthetic _ (length (gaps i 0))). intros a Ha. apply In_nth_error in Ha. destruct Ha as [r Er]. destruct (HS i r a Hi Er) as [(cell & Rc & _) [Lg _]]. rewrite <- Lg. rewrite <- (rec_length _ _ _ Rc), map_length. reflexivity. }
    rewrite Es. unfold dec, decode_revolutions. apply omapM_ok. intros rev Hin. apply In_nth_error in Hin. destruct Hin as [r Er]. destruct (HS i r rev Hi Er) as [(cell & Rc & H) [_ M]]. unfold revolution_track.
    assert (Ed : decode_revolution rd fuel None None (map sec (fst rev)) (sec (snd rev)) = Some (Ok (cells_of (gaps i r), true))).
    { destruct H as [(HC & A & L)|(HC & L)]; [exact (C69_double_density rd u fuel None _ cell _ _ R Hu Hf Rc HC A L)|exact (C69_high_density rd u fuel None _ cell _ _ R Hu Hf Rc HC L)]. }
    rewrite Ed. destruct (bits_new rnd (ch_at heads i) _ M) as (t & E & _). exists t. exact E. }
  set (bs := fun i => match dec (ch_at heads i) (synthesize (rs i)) with Ok b => b | _ => [] end).
  destruct (C64_load dec file n heads revs rs bs V HR) as (d' & _ & E & _); [intros i Hi; destruct (HB i Hi) as [b Eb]; unfold bs; rewrite Eb; reflexivity|].
  destruct (C69_scp rd u fuel rnd fm sec file n heads revs rs gaps d' R Hu Hf V Hr HR) as (s' & A & B & C); [intros i r rev Hi Er; destruct (HS i r rev Hi Er) as (X & Y & _); split; [exact X|exact Y]|exact E|].
  exists d', s'. split; [exact E|]. split; [exact A|]. split; [exact B|exact C].
Qed.
Lemma standard_decodes rd u fuel hint gaps times : rounds_rel rd u -> (0 <= u <= 1 # 9007199254740992)%Q -> 4 <= fuel -> mfi_standard rd hint gaps times ->
  exists fts det, mfi_normalize rd (map (mfi_seconds rd) times) = (fts, det) /\
    decode_revolution rd fuel None None fts (rd (60 / match hint with Some r => r | None => match det with Some r => rd (360 * rd (r / 360))%Q | None => 300%Q end end)%Q) = Some (Ok (cells_of gaps, true)).
Proof.
  intros R Hu Hf (cell & [(Rc & HC & L & Hh)|[(Rc & HC & L)|(Rc & HC & SW & L)]]).
  - exists (map (mfi_seconds rd) times), None. split; [exact (C71_kept rd u cell gaps _ R Hu Rc (or_intror HC))|].
    set (rpm := match hint with Some r => r | None => 300%Q end) in *. apply (C69_double_density rd u fuel None _ cell gaps _ R Hu Hf Rc HC); [|exact L].
    assert (Hr : (270 <= rpm <= 330)%Q) by (unfold rpm; destruct Hh as [-> | (r & -> & H)]; [split; apply Qle_bool_iff; reflexivity|exact H]). exact (about_speed rd u rpm R Hu Hr).
  - exists (map (mfi_seconds rd) times), None. split; [exact (C71_kept rd u cell gaps _ R Hu Rc (or_introl HC))|]. exact (C69_high_density rd u fuel None _ cell gaps _ R Hu Hf Rc HC L).
  - destruct (C71_scaled rd u cell gaps _ R Hu Rc HC SW ltac:(lia)) as (sc & rpm & En & _ & Rs & _). exists sc, (Some rpm). split; [exact En|].
    refine (C69_high_density rd u fuel None _ ((5 # 6) * cell)%Q gaps sc R Hu Hf Rs _ L). unfold cell_of, us in *. lra.
Qed.
Theorem C72_mfi : forall rd u fuel rnd fm hint inflate file cyls heads tm gaps, rounds_rel rd u -> (0 <= u <= 1 # 9007199254740992)%Q -> 4 <= fuel ->
  mfi_file file cyls heads -> heads <= 2 -> (forall i, i < cyls * heads -> mfi_times inflate file i (tm i)) ->
  (forall i, i < cyls * heads -> mfi_standard rd (hint (map tm (seq 0 i))) (gaps i) (tm i) /\ ~ mark_first (cells_of (gaps i))) ->
  exists d' s', mfi_load_image inflate (mfi_decoder rd fuel rnd fm hint) di_default file = Ok d' /\ maps_valid d' /\ shows d' s' /\ forall i, i < cyls * heads ->
    exists f b, nth_error (side s' (N.of_nat (i mod heads))) (i / heads) = Some (TFlux f) /\ ft_bitstream f = Ok (Some b) /\ bt_ch b = ch_at heads i /\ cells b = cells_of (gaps i).
Proof.
  intros rd u fuel rnd fm hint inflate file cyls heads tm gaps R Hu Hf V H2 HT HS. set (dec := mfi_decoder rd fuel rnd fm hint).
  assert (HB : forall i, i < cyls * heads -> exists b, mfi_track rd fuel rnd fm (hint (map tm (seq 0 i))) (ch_at heads i) (tm i) = Ok b).
  { intros i Hi. destruct (HS i Hi) as [Hs M]. destruct (standard_decodes rd u fuel _ _ _ R Hu Hf Hs) as (fts & det & En & Ed). unfold mfi_track. rewrite En. unfold revolution_track. cbv zeta. rewrite Ed. destruct (bits_new rnd (ch_at heads i) _ M) as (t & E & _). exists t. exact E. }
  set (bs := fun i => match dec (map tm (seq 0 i)) (ch_at heads i) [(tm i, 0%N)] with Ok b => b | _ => [] end).
  destruct (C70_load inflate dec file cyls heads tm bs V H2 HT) as (d' & _ & E & _); [intros i Hi; destruct (HB i Hi) as [b Eb]; unfold bs, dec, mfi_decoder; rewrite Eb; reflexivity|].
  destruct (C71_image rd u fuel rnd fm hint inflate file cyls heads tm gaps d' R Hu Hf V HT E) as (s' & A & B & C). exists d', s'. split; [exact E|]. split; [exact A|]. split; [exact B|]. intros i Hi. exact (C i Hi (proj1 (HS i Hi))).
Qed.

(* ---- a mark at the first cell, and the same mark two bytes later ---- *)
Definition mark_bytes : list N := [0x44; 0x89; 0x44; 0x89; 0x44; 0x89; 0x55; 0x54]%N.
Lemma mark_cells_first : mark_first (flat_map byte_bits mark_bytes).
Proof.
  right. split; [split; [apply Nat.leb_le; vm_compute; reflexivity|vm_compute; reflexivity]|]. intros p _ [A B]. assert (L : length (flat_map byte_bits mark_bytes) = 64) by (vm_compute; reflexivity). rewrite L in A. assert (p = 0) by (clear - A; lia). subst p.
  assert (X : bits_val (slice (flat_map byte_bits mark_bytes) 0 64) = 0x4489448944895554%N) by (vm_compute; reflexivity). rewrite X in B. discriminate B.
Qed.
(* So it is not true that the cells of any track can be loaded. *)
Theorem C72_any_cells_refuted : exists data, forall rnd ch detect, bt_new rnd ch data None None detect = Panic.
Proof.
  exists mark_bytes. intros rnd ch dw. assert (NE : mark_bytes <> [] \/ @None nat <> None) by (left; discriminate). destruct (C72_new rnd ch mark_bytes None None dw NE I) as [[M _]|[_ E]]; [|exact E]. exfalso. apply M. exact mark_cells_first.
Qed.
Example C72_ex : ~ mark_first (flat_map byte_bits ([0x92; 0x54] ++ mark_bytes)%N) /\ address_mark_at (flat_map byte_bits ([0x92; 0x54] ++ mark_bytes)%N) 16 /\
  forall rnd ch detect, exists t, bt_new rnd ch ([0x92; 0x54] ++ mark_bytes)%N None None detect = Ok t /\ cells t = flat_map byte_bits ([0x92; 0x54] ++ mark_bytes)%N.
Proof.
  assert (M : ~ mark_first (flat_map byte_bits ([0x92; 0x54] ++ mark_bytes)%N)).
  { intros [[_ A]|[[_ A] _]].
    - assert (X : bits_val (slice (flat_map byte_bits ([0x92; 0x54] ++ mark_bytes)%N) 0 64) = 0x9254448944894489%N) by (vm_compute; reflexivity). rewrite X in A. discriminate A.
    - assert (X : bits_val (slice (flat_map byte_bits ([0x92; 0x54] ++ mark_bytes)%N) 0 48) = 0x925444894489%N) by (vm_compute; reflexivity). rewrite X in A. discriminate A. }
  split; [exact M|]. split; [split; [apply Nat.leb_le; vm_compute; reflexivity|vm_compute; reflexivity]|]. intros rnd ch dw. assert (NE : ([0x92; 0x54] ++ mark_bytes)%N <> [] \/ @None nat <> None) by (left; discriminate).
  destruct (C72_new rnd ch _ None None dw NE I) as [(_ & t & E & C)|[X _]]; [exists t; split; [exact E|exact C]|contradiction].
Qed.

Print Assumptions C72_new.
Print Assumptions C72_errors.
Print Assumptions C72_hfe.
Print Assumptions C72_hxm.
Print Assumptions C72_tc.
Print Assumptions C72_tc_panic.
Print Assumptions C72_scp.
Print Assumptions C72_mfi.
Print Assumptions C72_any_cells_refuted.
