(* Mfi_props.v - C70: MAME floppy images; C71: their flux times. *)
From Verif Require Import Base Base_lemmas Chs_model BitRing_model Mfm_model Types_model System34_model MetaSector_model BitStream_model DiskImage_model DiskImage_spec DiskImage_proofs Raw_model F86_model Pce_model Pce_spec Flux_model Flux_spec Flux_proofs Pll_spec Pll_model Layout_spec Layout_proofs Tc_proofs Hxc_proofs Hist_model Hist_spec Hist_proofs Hist2_proofs Hist3_proofs Hist_props Pll_props Mfi_model Mfi_spec Mfi_proofs Mfi2_proofs.
From Coq Require Import QArith Qabs Qround Lia Lqa.
Import ListNotations.
Local Close Scope Q_scope.
Local Open Scope nat_scope.

Lemma id_eqb_iff a b : id_eqb a b = true <-> a = b.
Proof. unfold id_eqb. destruct (list_eq_dec N.eq_dec a b); split; congruence. Qed.
Lemma form_iff f : mfi_form_known f = true <-> In f [[0x33; 0x35; 0x20; 0x20]; [0x35; 0x32; 0x35; 0x20]; [0x38; 0x20; 0x20; 0x20]]%N.
Proof. unfold mfi_form_known. rewrite !orb_true_iff, !id_eqb_iff. cbn [In]. intuition congruence. Qed.
Lemma default_free : flux_free di_default.
Proof. split; [reflexivity|]. cbn. auto. Qed.
Lemma default_wf : wf di_default ([], []).
Proof. apply empty_wf; reflexivity. Qed.
Lemma table_len (file : list N) n : 32 + 16 * n <= length file -> 32 <= length file.
Proof. lia. Qed.

(* An image loads as one flux track for each entry of its table, in order, with the times of its flux words. *)
Theorem C70_load : forall inflate dec file cyls heads tm bs, mfi_file file cyls heads -> heads <= 2 ->
  (forall i, i < cyls * heads -> mfi_times inflate file i (tm i)) ->
  (forall i, i < cyls * heads -> dec (map tm (seq 0 i)) (ch_at heads i) [(tm i, 0%N)] = Ok (bs i)) ->
  exists d' s', mfi_load_image inflate dec di_default file = Ok d' /\ maps_valid d' /\ shows d' s' /\
    di_geom d' = mkCh (N.of_nat cyls) (N.of_nat heads) /\ laid heads (cyls * heads) (fun i => flux_track (ch_at heads i) (bs i)) s'.
Proof.
  intros inflate dec file cyls heads tm bs V H2 HT HD. rewrite mfi_load_after. pose proof (mf_table _ _ _ V) as L. pose proof (table_len _ _ L) as L0. apply Nat.leb_le in L0. rewrite L0. unfold mfi_after.
  destruct (mf_cyls _ _ _ V) as [Ec Hc]. destruct (mf_heads _ _ _ V) as [Eh Hh]. replace (id_eqb (bytes_at file 0 15) mfi_signature) with true by (symmetry; apply id_eqb_iff; exact (mf_magic _ _ _ V)).
  replace (mfi_form_known (bytes_at file 24 4)) with true by (symmetry; apply form_iff; exact (mf_form _ _ _ V)). cbn [negb]. cbv zeta. rewrite <- Ec, <- Eh. cbn [ch_c ch_h].
  replace ((N.of_nat cyls =? 0)%N || (N.of_nat heads =? 0)%N) with false by (symmetry; apply orb_false_iff; split; apply N.eqb_neq; lia).
  replace (N.to_nat (N.of_nat cyls * N.of_nat heads)) with (cyls * heads) by lia. set (n := cyls * heads) in *.
  pose proof (tab_ok file heads cyls Hh Hc n 0 eq_refl L) as T. unfold iter_at, last_off in T. change (32 + 16 * 0) with 32 in T. rewrite T.
  2:{ intros j Hj. apply (proj1 (order_ok file n (mf_offsets _ _ _ V)) (mf_order _ _ _ V)). lia. }
  cbn [obind]. assert (E0 : mkCh 0 0 = ch_at heads 0) by (unfold ch_at; rewrite Nat.div_0_l, Nat.mod_0_l by lia; reflexivity). rewrite E0. rewrite (data_run inflate file heads cyls Hh Hc n 0 eq_refl).
  assert (HX : forall j, j < n -> exists x, data_of inflate file j = Ok x /\ mfi_fluxes x = Ok (tm j)) by (intros j Hj; apply (proj1 (data_times _ _ _ _)); exact (HT j Hj)).
  rewrite omapM_pair_ok by (intros j Hj; apply in_seq in Hj; destruct (HX j ltac:(lia)) as (x & A & _); exists x; exact A). cbn [obind].
  assert (Hh2 : heads = 1 \/ heads = 2) by lia.
  destruct (add_ok dec heads (fun j => match data_of inflate file j with Ok x => x | _ => [] end) tm bs Hh2 n 0 di_default ([], [])) as (d' & s' & E & W & La).
  - intros j Hj. destruct (HX j ltac:(lia)) as (x & -> & B). exact B.
  - intros j Hj. apply HD. lia.
  - exact default_wf.
  - exact default_free.
  - apply laid_nil. exact Hh2.
  - change (map tm (seq 0 0)) with (@nil (list N)) in E. rewrite E. cbn [obind]. eexists. exists s'. split; [reflexivity|]. assert (W' : wf (with_geom d' (mkCh (N.of_nat cyls) (N.of_nat heads))) s') by exact W.
    split; [exact (proj1 W')|]. split; [apply wf_shows; exact W'|]. split; [reflexivity|]. exact La.
Qed.
(* Only such images load. *)
Theorem C70_only : forall inflate dec file d', mfi_load_image inflate dec di_default file = Ok d' ->
  exists cyls heads tm, mfi_file file cyls heads /\ heads <= 2 /\ forall i, i < cyls * heads -> mfi_times inflate file i (tm i) /\ exists bs, dec (map tm (seq 0 i)) (ch_at heads i) [(tm i, 0%N)] = Ok bs.
Proof.
  intros inflate dec file d' E. rewrite mfi_load_after in E. destruct (Nat.leb_spec 32 (length file)) as [L0|]; [|discriminate]. unfold mfi_after in E.
  destruct (id_eqb _ _) eqn:M; [|discriminate]. cbn [negb] in E. destruct (mfi_form_known _) eqn:F; [|discriminate]. cbn [negb] in E. cbv zeta in E. cbn [ch_c ch_h] in E.
  set (cn := (le32_at file 16 mod 65536)%N) in *. set (hn := (le32_at file 20 mod 256)%N) in *. destruct (_ || _) eqn:Z; [discriminate|]. apply orb_false_iff in Z. destruct Z as [Z1 Z2]. apply N.eqb_neq in Z1, Z2.
  set (cyls := N.to_nat cn). set (heads := N.to_nat hn). assert (Ec : cn = N.of_nat cyls) by (unfold cyls; lia). assert (Eh : hn = N.of_nat heads) by (unfold heads; lia). assert (Hc : 1 <= cyls) by lia. assert (Hh : 1 <= heads) by lia.
  rewrite Ec, Eh in E. replace (N.to_nat (N.of_nat cyls * N.of_nat heads)) with (cyls * heads) in E by lia. set (n := cyls * heads) in *.
  destruct (mfi_table _ _ _ _ _ _) as [es| |] eqn:Et; cbn [obind] in E; try discriminate.
  destruct (tab_inv file heads cyls Hh Hc n 0 es eq_refl Et ltac:(lia)) as [Lt Ho]. pose proof (tab_ok file heads cyls Hh Hc n 0 eq_refl Lt Ho) as Et2. unfold iter_at, last_off in Et2. change (32 + 16 * 0) with 32 in Et2. rewrite Et2 in Et.
  apply (f_equal (fun x => match x with Ok y => y | _ => es end)) in Et. subst es.
  assert (E0 : mkCh 0 0 = ch_at heads 0) by (unfold ch_at; rewrite Nat.div_0_l, Nat.mod_0_l by lia; reflexivity). rewrite E0 in E. rewrite (data_run inflate file heads cyls Hh Hc n 0 eq_refl) in E.
  destruct (omapM _ _) as [ts| |] eqn:Eo; cbn [obind] in E; try discriminate. destruct (omapM_pair _ _ _ _ _ Eo) as [HX ->].
  destruct (mfi_add _ _ _ _) as [d1| |] eqn:Ea; cbn [obind] in E; try discriminate.
  set (dt := fun j => match data_of inflate file j with Ok x => x | _ => [] end) in *. set (tm := fun j => match mfi_fluxes (dt j) with Ok t => t | _ => [] end).
  pose proof (add_inv dec heads dt tm n 0 di_default d1 Ea) as AI. specialize (AI ltac:(intros j t _ Ej; unfold tm; rewrite Ej; reflexivity)).
  exists cyls, heads, tm. split.
  { constructor; try assumption.
    - apply id_eqb_iff. exact M.
    - apply form_iff. exact F.
    - split; [unfold cn in Ec; lia|lia].
    - split; [unfold hn in Eh; lia|lia].
    - intros i Hi. apply (proj2 (Ho i ltac:(lia))).
    - apply (proj2 (order_ok file n (fun i Hi => proj2 (Ho i ltac:(lia))))). intros i Hi. apply Ho. lia. }
  split.
  - destruct (Nat.le_gt_cases heads 2) as [A|A]; [exact A|]. exfalso. assert (H3 : 2 < n) by (unfold n; nia). destruct (AI 2 ltac:(lia)) as [B _]. cbn [ch_at ch_h] in B. rewrite Nat.mod_small in B by lia. lia.
  - intros i Hi. destruct (AI i ltac:(lia)) as (_ & A & B). split; [|exact B]. apply (proj2 (data_times _ _ _ _)). destruct (HX i ltac:(apply in_seq; lia)) as [x Ex]. exists x. split; [exact Ex|]. unfold dt in A. rewrite Ex in A. exact A.
Qed.
(* Loading panics only when decoding a track does, or for a flux word of an unknown type. *)
Theorem C70_panics : forall inflate dec d file, mfi_load_image inflate dec d file = Panic ->
  (exists past ch revs, dec past ch revs = Panic) \/
  exists i data, inflate (bytes_at file (N.to_nat (mfi_offset file i)) (N.to_nat (mfi_packed file i))) (N.to_nat (mfi_size file i)) = Some data /\ Exists (fun w => 2 ^ 30 <= w)%N (mfi_words data).
Proof.
  intros inflate dec d file E. rewrite mfi_load_after in E. destruct (Nat.leb_spec 32 (length file)) as [L0|]; [|discriminate]. unfold mfi_after in E.
  destruct (negb _); [discriminate|]. destruct (negb _); [discriminate|]. cbv zeta in E. cbn [ch_c ch_h] in E. set (cn := (le32_at file 16 mod 65536)%N) in *. set (hn := (le32_at file 20 mod 256)%N) in *. destruct (_ || _) eqn:Z; [discriminate|]. apply orb_false_iff in Z. destruct Z as [Z1 Z2]. apply N.eqb_neq in Z1, Z2.
  set (cyls := N.to_nat cn). set (heads := N.to_nat hn). assert (Ec : cn = N.of_nat cyls) by (unfold cyls; lia). assert (Eh : hn = N.of_nat heads) by (unfold heads; lia). assert (Hc : 1 <= cyls) by lia. assert (Hh : 1 <= heads) by lia.
  rewrite Ec, Eh in E. replace (N.to_nat (N.of_nat cyls * N.of_nat heads)) with (cyls * heads) in E by lia. set (n := cyls * heads) in *.
  destruct (mfi_table _ _ _ _ _ _) as [es| |] eqn:Et; cbn [obind] in E; [|discriminate|exfalso; exact (tab_no_panic file heads cyls Hh Hc n 0 eq_refl Et)].
  destruct (tab_inv file heads cyls Hh Hc n 0 es eq_refl Et ltac:(lia)) as [Lt Ho]. pose proof (tab_ok file heads cyls Hh Hc n 0 eq_refl Lt Ho) as Et2. unfold iter_at, last_off in Et2. change (32 + 16 * 0) with 32 in Et2. rewrite Et2 in Et.
  apply (f_equal (fun x => match x with Ok y => y | _ => es end)) in Et. subst es.
  assert (E0 : mkCh 0 0 = ch_at heads 0) by (unfold ch_at; rewrite Nat.div_0_l, Nat.mod_0_l by lia; reflexivity). rewrite E0 in E. rewrite (data_run inflate file heads cyls Hh Hc n 0 eq_refl) in E.
  destruct (omapM _ _) as [ts| |] eqn:Eo; cbn [obind] in E; [|discriminate|exfalso; exact (omapM_pair_panic _ _ _ _ Eo)]. destruct (omapM_pair _ _ _ _ _ Eo) as [HX ->].
  destruct (mfi_add _ _ _ _) as [d1| |] eqn:Ea; cbn [obind] in E; try discriminate. destruct (add_panic _ _ _ _ Ea) as [A|(t & Ht & Hp)]; [left; exact A|]. right. apply in_map_iff in Ht. destruct Ht as (i & <- & Hi). cbn [snd] in Hp.
  destruct (HX i Hi) as [x Ex]. rewrite Ex in Hp. exists i, x. destruct (fluxes_spec x) as [[_ B]|[B _]]; [congruence|]. split; [|exact B].
  unfold data_of in Ex. destruct (_ || _) eqn:U; [injection Ex as <-; discriminate|]. assert (NU : ~ mfi_unformatted file i) by (intros X; apply (proj2 (unformatted_dec file i)) in X; congruence). rewrite exact_pos in Ex by (unfold mfi_unformatted in NU; lia).
  destruct (_ <=? length file); cbn [obind] in Ex; [|discriminate]. destruct (inflate _ _) as [buf|] eqn:I; [injection Ex as <-; reflexivity|discriminate].
Qed.

(* ---- an image of two tracks, the second unformatted ---- *)
Definition ex_mfi : list N :=
  ([0x4D; 0x41; 0x4D; 0x45; 0x46; 0x4C; 0x4F; 0x50; 0x50; 0x59; 0x49; 0x4D; 0x41; 0x47; 0x45; 0] ++ [1; 0; 0; 0; 2; 0; 0; 0] ++ [0x33; 0x35; 0x20; 0x20; 0; 0; 0; 0] ++
   [64; 0; 0; 0; 3; 0; 0; 0; 8; 0; 0; 0; 0; 0; 0; 0] ++ [0; 0; 0; 0; 0; 0; 0; 0; 0; 0; 0; 0; 0; 0; 0; 0] ++ [7; 7; 7])%N.
Definition ex_inflate (words : list N) (data : list N) (n : nat) : option (list N) := if n =? length words then Some words else None.
Lemma ex_mfi_file : mfi_file ex_mfi 1 2.
Proof.
  constructor; try (vm_compute; reflexivity).
  - cbn. auto.
  - split; [vm_compute; reflexivity|lia].
  - split; [vm_compute; reflexivity|lia].
  - cbn. lia.
  - intros [|[|i]] Hi; [vm_compute; discriminate|vm_compute; discriminate|cbn in Hi; lia].
  - intros [|[|i]] j Hi Hj; [lia| |cbn in Hi; lia]. intros P. exfalso. vm_compute in P. discriminate.
Qed.
Example C70_ex : exists d', mfi_load_image (ex_inflate [0xA0; 0x0F; 0; 0; 0; 0; 0; 0x10]%N) (fun _ _ rs => match rs with [([t], _)] => if (t =? 4000)%N then Ok [] else Err IoError | [([], _)] => Ok [] | _ => Err IoError end) di_default ex_mfi = Ok d' /\ di_geom d' = mkCh 1 2.
Proof. eexists. split; vm_compute; reflexivity. Qed.
(* A flux word of an unknown type stops the program. *)
Theorem C70_no_panic_refuted : ~ (forall inflate dec file, (forall past ch revs, dec past ch revs <> Panic) -> mfi_load_image inflate dec di_default file <> Panic).
Proof. intros H. apply (H (ex_inflate [0; 0; 0; 0x40; 0; 0; 0; 0]%N) (fun _ _ _ => Ok []) ex_mfi); [discriminate|]. vm_compute. reflexivity. Qed.
(* A file for more than 255 heads or 65535 cylinders is taken as one of fewer. *)
Theorem C70_geometry_refuted : ~ (forall inflate dec file d', mfi_load_image inflate dec di_default file = Ok d' -> (ch_c (di_geom d') = le32_at file 16 mod 2 ^ 30)%N).
Proof.
  intros H. specialize (H (ex_inflate [0; 0; 0; 0; 0; 0; 0; 0]%N) (fun _ _ _ => Ok []) (upd ex_mfi 18 1%N)). remember (mfi_load_image _ _ _ _) as o eqn:E. vm_compute in E. subst o. specialize (H _ eq_refl). vm_compute in H. discriminate.
Qed.

(* ---- C71 ---- *)
Lemma hd_track rd u fuel rnd fm rpm ch index cell gaps deltas t : rounds_rel rd u -> (0 <= u <= 1 # 9007199254740992)%Q -> 4 <= fuel -> recording cell gaps deltas -> cell_of (us 1) cell -> (50000 <= N.of_nat (length gaps))%N ->
  revolution_track rd fuel rnd fm None rpm ch deltas index = Ok t -> bt_ch t = ch /\ cells t = cells_of gaps.
Proof.
  intros R Hu Hf Rc HC L E. unfold revolution_track in E. rewrite (C69_high_density rd u fuel rpm _ cell gaps _ R Hu Hf Rc HC L) in E. split; [eapply bt_new_ch; exact E|]. exact (C61_track _ _ _ _ E).
Qed.
(* The times of standard tracks that turn at 300 RPM are left alone. *)
Theorem C71_kept : forall rd u cell gaps deltas, rounds_rel rd u -> (0 <= u <= 1 # 9007199254740992)%Q -> recording cell gaps deltas -> cell_of (us 1) cell \/ cell_of (us 2) cell ->
  mfi_normalize rd deltas = (deltas, None).
Proof. intros rd u cell gaps deltas R Hu Rc [H|H]; [exact (keep_hd rd u R Hu cell gaps deltas H Rc)|exact (keep_dd rd u R Hu cell gaps deltas H Rc)]. Qed.
(* High density at 360 RPM: every time is scaled by 5/6, and a speed between 340 and 380 RPM is found. *)
Theorem C71_scaled : forall rd u cell gaps deltas, rounds_rel rd u -> (0 <= u <= 1 # 9007199254740992)%Q -> recording_360 cell gaps deltas -> cell_of (12 # 10000000) cell ->
  starts_well gaps -> (100 <= N.of_nat (length gaps))%N ->
  exists scaled rpm, mfi_normalize rd deltas = (scaled, Some rpm) /\ (340 <= rpm <= 380)%Q /\ recording ((5 # 6) * cell)%Q gaps scaled /\
    Forall2 (fun d s => Qabs (s - (5 # 6) * d) <= (1 # 100000000000) * d)%Q deltas scaled.
Proof.
  intros rd u cell gaps deltas R Hu Rc HC SW L. destruct (adjust_360 rd u R Hu cell gaps deltas HC Rc SW L) as (rpm & E & B). exists (map (slowed rd) deltas), rpm. split; [exact E|]. split; [exact B|]. split; [exact (r3_slowed rd u R Hu cell gaps deltas HC Rc)|].
  pose proof (r3_pos cell gaps deltas HC Rc) as P. clear E Rc. induction P as [|d l Hd _ IH]; [constructor|]. cbn [map]. constructor; [|exact IH]. exact (slowed_ok rd u R Hu d Hd).
Qed.
(* The words are nanoseconds. *)
Theorem C71_seconds : forall rd u t, rounds_rel rd u -> (0 <= u <= 1 # 9007199254740992)%Q ->
  (Qabs (mfi_seconds rd t - inject_Z (Z.of_N t) * (1 # 1000000000)) <= (1 # 1000000000000000) * (inject_Z (Z.of_N t) * (1 # 1000000000)))%Q.
Proof.
  intros rd u t R Hu. unfold mfi_seconds. assert (T : (0 <= inject_Z (Z.of_N t))%Q) by (change 0%Q with (inject_Z 0); rewrite <- Zle_Qle; lia). set (x := inject_Z (Z.of_N t)) in *. clearbody x.
  assert (Hc : (9999999999999999 # 10000000000000000000000000 <= c1n <= 10000000000000001 # 10000000000000000000000000)%Q) by (split; apply Qle_bool_iff; reflexivity).
  assert (A : ((9999999999999999 # 10000000000000000000000000) * x <= c1n * x)%Q) by (apply Qmult_le_compat_r; [apply Hc|exact T]). assert (B : (c1n * x <= (10000000000000001 # 10000000000000000000000000) * x)%Q) by (apply Qmult_le_compat_r; [apply Hc|exact T]).
  assert (E : (x * c1n == c1n * x)%Q) by apply Qmult_comm. set (y := (c1n * x)%Q) in *. set (z := (x * c1n)%Q) in *. clearbody y z. assert (Z0 : (0 <= z)%Q) by lra.
  pose proof (R z) as D. rewrite (Qabs_pos z Z0) in D. assert (U : (u * z <= (1 # 9007199254740992) * z)%Q) by (apply Qmult_le_compat_r; [apply Hu|exact Z0]). set (w := (u * z)%Q) in *. clearbody w. apply Qabs_Qle_condition in D. destruct D as [D1 D2]. apply Qabs_Qle_condition. set (r := rd z) in *. clearbody r. split; lra.
Qed.
Lemma about_speed rd u rpm : rounds_rel rd u -> (0 <= u <= 1 # 9007199254740992)%Q -> (270 <= rpm <= 330)%Q -> about_300 (rd (60 / rpm)%Q).
Proof.
  intros R Hu Hr.
  assert (P : (0 < rpm)%Q) by lra. assert (Q1 : (60 / 330 <= 60 / rpm)%Q) by (apply Qle_shift_div_l; [exact P|]; assert (X : (60 / 330 * rpm <= 60 / 330 * 330)%Q) by (rewrite !(Qmult_comm (60 / 330)); apply Qmult_le_compat_r; [apply (proj2 Hr)|apply Qle_bool_iff; reflexivity]); eapply Qle_trans; [exact X|apply Qle_bool_iff; reflexivity]).
    assert (Q2 : (60 / rpm <= 60 / 270)%Q) by (apply Qle_shift_div_r; [exact P|]; assert (X : (60 / 270 * 270 <= 60 / 270 * rpm)%Q) by (rewrite !(Qmult_comm (60 / 270)); apply Qmult_le_compat_r; [apply (proj1 Hr)|apply Qle_bool_iff; reflexivity]); eapply Qle_trans; [|exact X]; apply Qle_bool_iff; reflexivity).
    assert (Q3 : (18181 # 100000 <= 60 / 330)%Q) by (apply Qle_bool_iff; reflexivity). assert (Q4 : (60 / 270 <= 2223 # 10000)%Q) by (apply Qle_bool_iff; reflexivity). set (y := (60 / rpm)%Q) in *. clearbody y. destruct (rd_pos rd u R (Hu' u Hu) y ltac:(lra)) as [B C]. unfold about_300. set (z := rd y) in *. clearbody z. lra.
Qed.
(* A double density track, at 300 RPM. *)
Theorem C71_double_density : forall rd u fuel rnd fm hint ch cell gaps times t, rounds_rel rd u -> (0 <= u <= 1 # 9007199254740992)%Q -> 4 <= fuel ->
  recording cell gaps (map (mfi_seconds rd) times) -> cell_of (us 2) cell -> (20000 <= N.of_nat (length gaps) < 41666)%N ->
  (hint = None \/ exists r, hint = Some r /\ (270 <= r <= 330)%Q) -> mfi_track rd fuel rnd fm hint ch times = Ok t -> bt_ch t = ch /\ cells t = cells_of gaps.
Proof.
  intros rd u fuel rnd fm hint ch cell gaps times t R Hu Hf Rc HC L Hh E. unfold mfi_track in E. rewrite (C71_kept rd u cell gaps _ R Hu Rc (or_intror HC)) in E.
  set (rpm := match hint with Some r => r | None => 300%Q end) in *. assert (Hr : (270 <= rpm <= 330)%Q) by (unfold rpm; destruct Hh as [-> | (r & -> & H)]; [split; apply Qle_bool_iff; reflexivity|exact H]).
  assert (A : about_300 (rd (60 / rpm)%Q)) by exact (about_speed rd u rpm R Hu Hr).
  unfold revolution_track in E. rewrite (C69_double_density rd u fuel None _ cell gaps _ R Hu Hf Rc HC A L) in E. split; [eapply bt_new_ch; exact E|]. exact (C61_track _ _ _ _ E).
Qed.
(* A high density track, at 300 RPM. *)
Theorem C71_high_density : forall rd u fuel rnd fm hint ch cell gaps times t, rounds_rel rd u -> (0 <= u <= 1 # 9007199254740992)%Q -> 4 <= fuel ->
  recording cell gaps (map (mfi_seconds rd) times) -> cell_of (us 1) cell -> (50000 <= N.of_nat (length gaps))%N ->
  mfi_track rd fuel rnd fm hint ch times = Ok t -> bt_ch t = ch /\ cells t = cells_of gaps.
Proof.
  intros rd u fuel rnd fm hint ch cell gaps times t R Hu Hf Rc HC L E. unfold mfi_track in E. rewrite (C71_kept rd u cell gaps _ R Hu Rc (or_introl HC)) in E. exact (hd_track rd u fuel rnd fm _ ch _ cell gaps _ t R Hu Hf Rc HC L E).
Qed.
(* A high density track, at 360 RPM. *)
Theorem C71_360 : forall rd u fuel rnd fm hint ch cell gaps times t, rounds_rel rd u -> (0 <= u <= 1 # 9007199254740992)%Q -> 4 <= fuel ->
  recording_360 cell gaps (map (mfi_seconds rd) times) -> cell_of (12 # 10000000) cell -> starts_well gaps -> (50000 <= N.of_nat (length gaps))%N ->
  mfi_track rd fuel rnd fm hint ch times = Ok t -> bt_ch t = ch /\ cells t = cells_of gaps.
Proof.
  intros rd u fuel rnd fm hint ch cell gaps times t R Hu Hf Rc HC SW L E. unfold mfi_track in E. destruct (C71_scaled rd u cell gaps _ R Hu Rc HC SW ltac:(lia)) as (sc & rpm & En & _ & Rs & _). rewrite En in E.
  refine (hd_track rd u fuel rnd fm _ ch _ ((5 # 6) * cell)%Q gaps sc t R Hu Hf Rs _ L E). unfold cell_of, us in *. lra.
Qed.

(* A whole image of standard tracks, whatever speed is carried over from track to track (`hint`) where no track is double density: every track that
   gets loaded has the recorded cells. *)
Definition mfi_standard (rd : Q -> Q) (hint : option Q) (gaps : list nat) (times : list N) : Prop := exists cell,
  (recording cell gaps (map (mfi_seconds rd) times) /\ cell_of (us 2) cell /\ (20000 <= N.of_nat (length gaps) < 41666)%N /\ (hint = None \/ exists r, hint = Some r /\ (270 <= r <= 330)%Q)) \/
  (recording cell gaps (map (mfi_seconds rd) times) /\ cell_of (us 1) cell /\ (50000 <= N.of_nat (length gaps))%N) \/
  (recording_360 cell gaps (map (mfi_seconds rd) times) /\ cell_of (12 # 10000000) cell /\ starts_well gaps /\ (50000 <= N.of_nat (length gaps))%N).
Theorem C71_image : forall rd u fuel rnd fm hint inflate file cyls heads tm gaps d', rounds_rel rd u -> (0 <= u <= 1 # 9007199254740992)%Q -> 4 <= fuel ->
  mfi_file file cyls heads -> (forall i, i < cyls * heads -> mfi_times inflate file i (tm i)) ->
  mfi_load_image inflate (mfi_decoder rd fuel rnd fm hint) di_default file = Ok d' ->
  exists s', maps_valid d' /\ shows d' s' /\ forall i, i < cyls * heads -> mfi_standard rd (hint (map tm (seq 0 i))) (gaps i) (tm i) ->
    exists f b, nth_error (side s' (N.of_nat (i mod heads))) (i / heads) = Some (TFlux f) /\ ft_bitstream f = Ok (Some b) /\ bt_ch b = ch_at heads i /\ cells b = cells_of (gaps i).
Proof.
  intros rd u fuel rnd fm hint inflate file cyls heads tm gaps d' R Hu Hf V HT E. set (dec := mfi_decoder rd fuel rnd fm hint) in *.
  destruct (C70_only inflate dec file d' E) as (c' & h' & tm' & V' & H2 & HD).
  assert (Ec : c' = cyls) by (apply Nat2N.inj; rewrite (proj1 (mf_cyls _ _ _ V)), (proj1 (mf_cyls _ _ _ V')); reflexivity). assert (Eh : h' = heads) by (apply Nat2N.inj; rewrite (proj1 (mf_heads _ _ _ V)), (proj1 (mf_heads _ _ _ V')); reflexivity). subst c' h'.
  assert (Et : forall i, i < cyls * heads -> tm' i = tm i) by (intros i Hi; exact (mfi_times_unique _ _ _ _ _ (proj1 (HD i Hi)) (HT i Hi))).
  assert (Em : forall i, i < cyls * heads -> map tm' (seq 0 i) = map tm (seq 0 i)) by (intros i Hi; apply map_ext_in; intros j Hj; apply in_seq in Hj; apply Et; lia).
  set (bs := fun i => match dec (map tm (seq 0 i)) (ch_at heads i) [(tm i, 0%N)] with Ok b => b | _ => [] end).
  assert (HB : forall i, i < cyls * heads -> dec (map tm (seq 0 i)) (ch_at heads i) [(tm i, 0%N)] = Ok (bs i)). { intros i Hi. destruct (HD i Hi) as [_ [b Eb]]. rewrite Em, Et in Eb by exact Hi. unfold bs. rewrite Eb. reflexivity. }
  destruct (C70_load inflate dec file cyls heads tm bs V H2 HT HB) as (d2 & s' & E2 & MV & Sh & _ & La). assert (d2 = d') by congruence. subst d2. exists s'. split; [exact MV|]. split; [exact Sh|]. intros i Hi HS.
  destruct La as (_ & _ & La). specialize (La i Hi). pose proof (HB i Hi) as Eb. unfold dec, mfi_decoder in Eb. destruct (mfi_track rd fuel rnd fm (hint (map tm (seq 0 i))) (ch_at heads i) (tm i)) as [b| |] eqn:Ek; cbn [omap] in Eb; try discriminate.
  assert (Es : bs i = [b]) by (revert Eb; clear; generalize (bs i); intros l Eb; exact (f_equal (fun x => match x with Ok y => y | _ => [] end) (eq_sym Eb))). rewrite Es in La. unfold flux_track, analyze_revolutions in La. cbn [ft_revs ft_ch ft_decoded length map] in La. pose proof (best_in [b] ltac:(discriminate)) as Hbest. cbn [map length] in Hbest. set (k := best_loop 0 [Some b] 0 0%Z) in *. assert (k = 0) by lia. clearbody k. subst k.
  eexists. exists b. split; [exact La|]. split; [reflexivity|]. destruct HS as (cell & [(Rc & HC & L & Hh)|[(Rc & HC & L)|(Rc & HC & SW & L)]]).
  - exact (C71_double_density rd u fuel rnd fm _ _ cell (gaps i) (tm i) b R Hu Hf Rc HC L Hh Ek).
  - exact (C71_high_density rd u fuel rnd fm _ _ cell (gaps i) (tm i) b R Hu Hf Rc HC L Ek).
  - exact (C71_360 rd u fuel rnd fm _ _ cell (gaps i) (tm i) b R Hu Hf Rc HC SW L Ek).
Qed.

(* ---- a 360 RPM track: distances of 2, 3 and 4 cells of 1200 ns in turn ---- *)
Lemma cycle_counts : forall n k, k <= 3 * n -> k <= 3 * count_occ Nat.eq_dec (firstn k (cycle n)) 2 /\ k <= 3 * count_occ Nat.eq_dec (firstn k (cycle n)) 3 + 1.
Proof.
  induction n as [|n IH]; intros k H; [assert (k = 0) by lia; subst k; cbn; lia|]. cbn [cycle]. destruct k as [|[|[|k]]]; cbn [firstn count_occ].
  - cbn. lia.
  - destruct (Nat.eq_dec 2 2); [|lia]. destruct (Nat.eq_dec 2 3); lia.
  - destruct (Nat.eq_dec 2 2); [|lia]. destruct (Nat.eq_dec 2 3); [lia|]. destruct (Nat.eq_dec 3 2); [lia|]. destruct (Nat.eq_dec 3 3); lia.
  - destruct (IH k ltac:(lia)) as [A B]. destruct (Nat.eq_dec 2 2); [|lia]. destruct (Nat.eq_dec 2 3); [lia|]. destruct (Nat.eq_dec 3 2); [lia|]. destruct (Nat.eq_dec 3 3); [|lia]. destruct (Nat.eq_dec 4 2); [lia|]. destruct (Nat.eq_dec 4 3); lia.
Qed.
Lemma cycle_starts n : 100 <= n -> starts_well (cycle n).
Proof. intros Hn k H1 H2. rewrite cycle_length in H1, H2. destruct (cycle_counts n k ltac:(lia)) as [A B]. lia. Qed.
Definition ex_times (n : nat) : list N := map (fun g => 1200 * N.of_nat g)%N (cycle n).
Lemma ex_near n : near (1200 * c1n)%Q 0 (cycle n) (map (mfi_seconds Qred) (ex_times n)).
Proof.
  unfold ex_times. split; [rewrite !map_length; reflexivity|]. intros k _. rewrite !firstn_map. apply Qabs_Qle_condition.
  assert (E : (Qsum (map (mfi_seconds Qred) (map (fun g => 1200 * N.of_nat g)%N (firstn k (cycle n)))) == 1200 * c1n * Qnat (list_sum (firstn k (cycle n))))%Q); [|rewrite E; set (y := (1200 * c1n * _)%Q); clearbody y; lra].
  induction (firstn k (cycle n)) as [|g l IH]; [reflexivity|]. cbn [map Qsum fold_right list_sum]. fold (Qsum (map (mfi_seconds Qred) (map (fun g => 1200 * N.of_nat g)%N l))). fold (list_sum l). rewrite IH. unfold mfi_seconds. rewrite Qred_correct. unfold Qnat. rewrite N2Z.inj_mul, nat_N_Z, Nat2Z.inj_add, inject_Z_plus, inject_Z_mult. change (Z.of_N 1200) with 1200%Z. change (inject_Z 1200) with 1200%Q. ring.
Qed.
Lemma ex_recording n : 1 <= n -> (N.of_nat n <= 40000)%N -> recording_360 (1200 * c1n) (cycle n) (map (mfi_seconds Qred) (ex_times n)).
Proof.
  intros H1 H2. assert (Hc : (0 <= 1200 * c1n <= 1201 # 1000000000)%Q) by (split; apply Qle_bool_iff; reflexivity).
  assert (Ht : (Qnat (9 * n) + 10 <= 360010)%Q). { unfold Qnat. assert (X : (inject_Z (Z.of_nat (9 * n)) <= inject_Z 360000)%Q) by (rewrite <- Zle_Qle; lia). change (inject_Z 360000) with 360000%Q in X. lra. }
  assert (T : ((1200 * c1n) * (Qnat (9 * n) + 10) <= 1 # 2)%Q). { apply (Qle_trans _ ((1201 # 1000000000) * (Qnat (9 * n) + 10))); [apply Qmult_le_compat_r; [apply Hc|]|set (y := Qnat (9 * n)) in *; clearbody y; lra]. unfold Qnat. change 0%Q with (inject_Z 0). change 10%Q with (inject_Z 10). rewrite <- inject_Z_plus, <- Zle_Qle. lia. }
  pose proof (cycle_recording (1200 * c1n) n (proj1 Hc) H1 T) as Rc. constructor; [exact (rec_mfm _ _ _ Rc)|exact (rec_some _ _ _ Rc)|exact (rec_medium _ _ _ Rc)| |exact (rec_time _ _ _ Rc)].
  apply (near_weaken _ 0); [|apply ex_near]. set (y := (1200 * c1n)%Q) in *. clearbody y. lra.
Qed.
Example C71_ex : exists n, (50000 <= N.of_nat (length (cycle n)))%N /\ mfi_standard Qred None (cycle n) (ex_times n) /\
  exists scaled rpm, mfi_normalize Qred (map (mfi_seconds Qred) (ex_times n)) = (scaled, Some rpm).
Proof.
  exists (N.to_nat 17000). assert (L : (50000 <= N.of_nat (length (cycle (N.to_nat 17000))))%N) by (rewrite cycle_length; lia). assert (Rc : recording_360 (1200 * c1n) (cycle (N.to_nat 17000)) (map (mfi_seconds Qred) (ex_times (N.to_nat 17000)))) by (apply ex_recording; lia).
  assert (SW : starts_well (cycle (N.to_nat 17000))) by (apply cycle_starts; lia). assert (HC : cell_of (12 # 10000000) (1200 * c1n)) by (split; apply Qle_bool_iff; reflexivity). split; [exact L|]. split; [exists (1200 * c1n)%Q; right; right; split; [exact Rc|]; split; [exact HC|]; split; [exact SW|exact L]|].
  destruct (C71_scaled Qred 0 _ _ _ (exact_rounds 0 (Qle_refl 0)) ltac:(split; apply Qle_bool_iff; reflexivity) Rc HC SW ltac:(lia)) as (sc & rpm & E & _). exists sc, rpm. exact E.
Qed.

Print Assumptions C70_load.
Print Assumptions C70_only.
Print Assumptions C70_panics.
Print Assumptions C70_no_panic_refuted.
Print Assumptions C70_geometry_refuted.
Print Assumptions C71_kept.
Print Assumptions C71_scaled.
Print Assumptions C71_double_density.
Print Assumptions C71_high_density.
Print Assumptions C71_360.
Print Assumptions C71_image.

Print Assumptions C71_seconds.
