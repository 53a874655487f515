(* F86_props.v - C51: 86F files. *)
From Verif Require Import Base Base_lemmas BitRing_proofs Mfm_spec Weak_proofs
  Chs_model BitRing_model Mfm_model Types_model System34_model MetaSector_model BitStream_model DiskImage_model DiskImage_spec DiskImage_proofs
  Format_model Raw_model Format2_proofs TreeMap_proofs Pce_spec Pce3_proofs Pce4_proofs F86_model F86_spec F86_proofs F86b_proofs F86c_proofs.
From Coq Require Import Lia ZArith.
#[local] Opaque le16 le32 read_le32 read_le16.

Lemma collect {A} (P : nat -> A -> Prop) : forall n, (forall i, i < n -> exists x, P i x) ->
  exists l, length l = n /\ forall i x, nth_error l i = Some x -> P i x.
Proof.
  induction n as [|n IH]; intros H.
  - exists []. split; [reflexivity|]. intros i x E. destruct i; discriminate.
  - destruct IH as (l & L & Hl); [intros i Hi; apply H; lia|]. destruct (H n ltac:(lia)) as [x Hx].
    exists (l ++ [x]). split; [rewrite app_length; cbn; lia|]. intros i y E.
    destruct (Nat.lt_ge_cases i n) as [Hi|Hi].
    + rewrite nth_error_app1 in E by lia. auto.
    + rewrite nth_error_app2 in E by lia. rewrite L in E. destruct (i - n) as [|k] eqn:Ek; [|destruct k; discriminate].
      injection E as <-. replace i with n by lia. exact Hx.
Qed.
Definition head_flags (density sides wp : N) : N := (1 + density + sides + 0x80 + 0x1000 + wp)%N.
Lemma flags_decode density heads wp : (density = 0 \/ density = 2)%N -> heads = 1 \/ heads = 2 -> (wp = 0 \/ wp = 16)%N ->
  let fl := head_flags density (if heads =? 2 then 8 else 0) wp in
  (fl < 65536)%N /\ N.land fl 0x19FF = fl /\ file_flags fl heads /\ N.testbit fl 2 = false /\ N.testbit fl 8 = false /\ N.testbit fl 11 = false /\
  N.testbit fl 1 = (density =? 2)%N /\ N.testbit fl 4 = (wp =? 16)%N.
Proof. intros [-> | ->] [-> | ->] [-> | ->]; (split; [reflexivity|split; [reflexivity|split; [constructor; reflexivity|repeat split]]]). Qed.
Lemma entry_bound tf j : fits j -> (10 < N.of_nat (length (ent tf j)) <= 2097164)%N \/ length (ent tf j) = 10.
Proof.
  intros [F1 F2]. unfold ent. rewrite entry_length by exact F1. pose proof (to_bytes_len' (cells (snd j))) as [A B]. fold (octets (snd j)) in A, B.
  pose proof (Nat.mod_upper_bound (octets (snd j)) 2 ltac:(discriminate)). clear - F2 A B H. lia.
Qed.
Lemma total_bound tf : forall l, Forall fits l -> (N.of_nat (length (concat (map (ent tf) l))) <= N.of_nat (length l) * 2097164)%N.
Proof.
  induction l as [|j l IH]; intros H; [reflexivity|]. inversion H as [|? ? Hj Hl]; subst. cbn [map]. rewrite concat_length_cons.
  specialize (IH Hl). pose proof (entry_bound tf j Hj) as B. cbn [length]. clear - IH B. lia.
Qed.
Lemma flat_le32_length : forall l, length (flat_map le32 l) = 4 * length l.
Proof. induction l as [|x l IH]; [reflexivity|]. cbn [flat_map]. rewrite app_length, IH, le32_length. cbn [length]. lia. Qed.

(* ---- C51 ---- *)
Theorem C51_roundtrip : forall rnd bitlen other d dd s cyls heads, f86_image rnd d dd s cyls heads ->
  exists file, f86_save d dd = Ok file /\
  exists d' s',
    f86_load_image rnd bitlen other di_default file =
      Ok (d', mkDesc (dd_density dd) 2 1                       (* the data rate is not restored *)
                (Some (match dd_rpm dd with Some 1%N => 1%N | _ => 0%N end))
                (Some (match dd_write_protect dd with Some true => true | _ => false end)) false) /\
    maps_valid d' /\ shows d' s' /\ di_res d' = [RBitStream] /\
    di_geom d' = mkCh (N.of_nat (stored_cyls cyls)) (N.of_nat heads) /\
    length (fst s') = stored_cyls cyls /\ length (snd s') = (if heads =? 2 then stored_cyls cyls else 0) /\
    forall c h, c < stored_cyls cyls -> h < heads -> exists t t',
      nth_error (side s (N.of_nat h)) (c / copies cyls) = Some (TBit t) /\
      nth_error (side s' (N.of_nat h)) c = Some (TBit t') /\
      bt_ch t' = mkCh (N.of_nat c) (N.of_nat h) /\ kept (is_hole dd (c / copies cyls) h) t t'.
Proof.
  intros rnd bitlen other d dd s cyls heads [Hv Hs Hres Hg Hheads Hcyls Hboth Htr Hden Hrate Henc].
  pose proof (shows_wf d s Hv Hs) as Hwf.
  set (step := copies cyls).
  assert (Hstep : step = 1 \/ step = 2) by (unfold step, copies; destruct (cyls <? 80); auto).
  set (n := stored_cyls cyls * heads).
  assert (Hh0 : heads <> 0) by (clear - Hheads; lia).
  assert (Hsc : stored_cyls cyls = Nat.min (cyls * step) 256) by reflexivity.
  assert (Hn1 : 1 <= n) by (unfold n; rewrite Hsc; clear - Hcyls Hstep Hheads; destruct Hstep as [-> | ->], Hheads as [-> | ->]; lia).
  assert (Hn2 : n <= 256 * heads) by (unfold n; rewrite Hsc; clear; nia).
  destruct (collect (fun i j => src d dd heads step i j /\ f86_track_ok rnd (fst j) (snd j) /\
                       nth_error (side s (N.of_nat (i mod heads))) (i / heads / step) = Some (TBit (snd j)) /\
                       fst j = is_hole dd (i / heads / step) (i mod heads)) n) as (J & LJ & HJ).
  { intros i Hi.
    assert (Hh : i mod heads < heads) by (apply Nat.mod_upper_bound; exact Hh0).
    assert (Hc : i / heads / step < cyls).
    { unfold n in Hi. rewrite Hsc in Hi. apply Nat.div_lt_upper_bound; [clear - Hstep; lia|].
      apply Nat.div_lt_upper_bound; [exact Hh0|]. clear - Hi. nia. }
    destruct (Htr _ _ Hc Hh) as (t & Et & Hok). exists (is_hole dd (i / heads / step) (i mod heads), t).
    cbn [fst snd]. split; [|split; [exact Hok|split; [exact Et|reflexivity]]].
    destruct Hwf as [_ [M0 M1]]. unfold src. cbn [fst snd].
    destruct (Nat.eqb_spec (i mod heads) 0) as [E0|E0].
    - rewrite E0 in Et. cbn [N.of_nat side] in Et. pose proof (map_some_nth _ _ _ (i / heads / step) M0) as E. rewrite Et in E.
      destruct (nth_error (di_map0 d) _) as [ti|]; [|discriminate]. exists ti. auto.
    - assert (E1 : i mod heads = 1) by (clear - Hh Hheads E0; lia). rewrite E1 in Et. change (N.of_nat 1) with 1%N in Et. cbn [side] in Et.
      pose proof (map_some_nth _ _ _ (i / heads / step) M1) as E. rewrite Et in E.
      destruct (nth_error (di_map1 d) _) as [ti|]; [|discriminate]. exists ti. auto. }
  assert (Fok : Forall (fun j => f86_track_ok rnd (fst j) (snd j)) J).
  { apply Forall_forall. intros j Hj. apply In_nth_error in Hj as [i Hi]. apply HJ in Hi. tauto. }
  assert (Ffit : Forall fits J) by (eapply Forall_impl; [|exact Fok]; intros j (_ & _ & _ & A & B & _); split; assumption).
  set (rpm := match dd_rpm dd with Some 1%N => 1%N | _ => 0%N end).
  assert (Hrpm : (rpm <= 1)%N) by (unfold rpm; destruct (dd_rpm dd) as [[|[p|p|]]|]; discriminate).
  set (tf := tf_of (dd_rate dd) rpm).
  set (table := 256 * heads). set (base := 8 + 4 * table).
  assert (Htot : (N.of_nat (base + length (concat (map (ent tf) J))) < 4294967296)%N).
  { pose proof (total_bound tf J Ffit) as B. rewrite LJ in B. unfold base, table. clear - B Hn2 Hheads. lia. }
  set (wp := match dd_write_protect dd with Some true => 16%N | _ => 0%N end).
  set (den := (if dd_density dd =? 1 then 2 else 0)%N).
  set (fl := head_flags den (if heads =? 2 then 8 else 0) wp).
  destruct (flags_decode den heads wp) as (Fl1 & Fl2 & Fl3 & Fl4 & Fl5 & Fl6 & Fl7 & Fl8).
  { unfold den. destruct (dd_density dd =? 1)%N; auto. } { exact Hheads. } { unfold wp. destruct (dd_write_protect dd) as [[]|]; auto. }
  fold fl in Fl1, Fl2, Fl3, Fl4, Fl5, Fl6, Fl7, Fl8.
  set (offs := offs_of base (map (ent tf) J)).
  set (H := [0x38; 0x36; 0x42; 0x46; 0x0C; 0x02]%N ++ le16 fl ++ flat_map le32 (offs ++ repeat 0%N (table - length offs))).
  exists (H ++ concat (map (ent tf) J)). split.
  { unfold f86_save. rewrite Hres. change ((1 <? length [RBitStream]) || negb (res_mem RBitStream [RBitStream])) with false. cbv iota.
    assert (Ehw : di_has_weak d = Ok true).
    { destruct (Htr 0 0 ltac:(clear - Hcyls; lia) ltac:(clear - Hheads; lia)) as (t & Et & (P1 & P2 & P3 & P4 & _)).
      pose proof (track_iter_positions d s Hwf) as Ep. unfold positions in Ep.
      destruct (Nat.max (length (fst s)) (length (snd s))) as [|m] eqn:Em; [clear - Em Hboth Hcyls; lia|].
      cbn [seq flat_map] in Ep. replace (0 <? length (fst s)) with true in Ep by (symmetry; apply Nat.ltb_lt; clear - Hboth Hcyls; lia).
      cbn [app map fst snd N.of_nat] in Ep. unfold di_has_weak. destruct (track_iter d) as [|t0 ts]; [discriminate|].
      assert (Ep' : Some t0 = nth_error (side s 0%N) 0) by exact (f_equal (hd None) Ep). change (N.of_nat 0) with 0%N in Et. rewrite Et in Ep'. injection Ep' as ->. cbn [any_weak tk_has_weak].
      rewrite has_weak_bits_true; [reflexivity| |].
      - split; [exact P1|]. split; [exact P2|]. change (r_bits (m_bits (bt_data t))) with (cells t). destruct (cells t); [congruence|cbn; lia].
      - change (mfm_len (bt_data t)) with (length (cells t)). clear - P4. change (2 ^ 64 - 1)%N with 18446744073709551615%N. lia. }
    rewrite Ehw. cbn [obind].
    assert (Eden : (match dd_density dd with 0 => Ok 0 | 1 => Ok 2 | 2 => Ok 4 | _ => Err UnsupportedFormat end)%N = Ok den).
    { unfold den. assert (E : (dd_density dd = 0 \/ dd_density dd = 1)%N) by (clear - Hden; lia). destruct E as [-> | ->]; reflexivity. }
    rewrite Eden. cbn [obind]. rewrite Hg. cbn [ch_h ch_c].
    assert (Esides : (match N.of_nat heads with 1 => Ok 0 | 2 => Ok 8 | _ => Err UnsupportedFormat end)%N = Ok (if (heads =? 2)%nat then 8 else 0)%N)
      by (destruct Hheads as [-> | ->]; reflexivity).
    rewrite Esides. cbn [obind]. rewrite !Nat2N.id.
    destruct Hwf as [_ [M0 M1]]. apply map_some_len in M0. apply map_some_len in M1. rewrite M0, M1.
    replace ((length (fst s) <? cyls) || (length (snd s) <? cyls)) with false
      by (symmetry; apply Bool.orb_false_intro; apply Nat.ltb_ge; clear - Hboth; lia).
    assert (Erate : (match dd_rate dd with 0 => Ok 0 | 1 => Ok 1 | 2 => Ok 2 | 3 => Ok 3 | _ => Err UnsupportedFormat end)%N = Ok (dd_rate dd)).
    { assert (E : (dd_rate dd = 0 \/ dd_rate dd = 1 \/ dd_rate dd = 2 \/ dd_rate dd = 3)%N) by (clear - Hrate; lia).
      destruct E as [-> | [-> | [-> | ->]]]; reflexivity. }
    rewrite Erate. cbn [obind]. unfold F86_TRACK_TABLE_LEN_PER_HEAD. fold table.
    assert (Edbl : (N.of_nat cyls <? 80)%N = (step =? 2)).
    { unfold step, copies. destruct (Nat.ltb_spec cyls 80); [apply N.ltb_lt; lia|apply N.ltb_ge; lia]. }
    rewrite Edbl.
    assert (Eent : Nat.min (if step =? 2 then cyls * 2 * heads else cyls * heads) table = length J).
    { rewrite LJ. unfold table, n. rewrite Hsc. clear - Hstep Hheads. destruct Hstep as [E | E]; rewrite E; cbn [Nat.eqb]; destruct Hheads as [-> | ->]; lia. }
    rewrite Eent. fold base.
    assert (Etf : (dd_rate dd + 8 * dd_encoding dd + match dd_rpm dd with Some 1 => 32 | _ => 0 end)%N = tf).
    { unfold tf, tf_of, rpm. rewrite Henc. destruct (dd_rpm dd) as [[|[p|p|]]|]; reflexivity. }
    rewrite Etf.
    pose proof (entries_loop d dd tf heads step base Hheads Hstep J 0 [] []) as EL.
    assert (E00 : 0 / heads / step = 0 /\ 0 mod heads = 0 /\ (0 / heads) mod step = 0).
    { clear - Hheads Hstep. destruct Hheads as [-> | ->], Hstep as [-> | ->]; repeat split. }
    destruct E00 as (E0 & E1 & E2). rewrite E0, E1, E2 in EL. cbn [length app] in EL. rewrite Nat.add_0_r in EL.
    rewrite EL; [|intros k j Hk; split; [apply HJ in Hk; tauto|rewrite Forall_forall in Ffit; apply Ffit; eapply nth_error_In; exact Hk]|exact Htot].
    cbn [obind]. fold offs. unfold H. rewrite <- !app_assoc. reflexivity. }
  (* loading *)
  assert (Loffs : length offs = n) by (unfold offs; rewrite offs_length, map_length; exact LJ).
  assert (LH : length H = base).
  { unfold H. rewrite !app_length, flat_le32_length, app_length, repeat_length, Loffs. unfold base.
    change (length (le16 fl)) with 2. cbn [length]. clear - Hn2. unfold table. lia. }
  unfold f86_load_image. unfold H at 1. rewrite <- !app_assoc. rewrite read_exact_app' by reflexivity. cbn [obind].
  rewrite read_le16_app by exact Fl1. cbn [obind]. cbv zeta. rewrite Fl2, Fl4, Fl5, Fl6. cbv iota.
  assert (EJ' : exists j0 l, J = j0 :: l) by (clear - LJ Hn1; destruct J as [|j0 l]; [cbn in LJ; lia|eauto]). destruct EJ' as (j0 & l & EJ).
  assert (Hbody : length (concat (map (ent tf) J)) = length (ent tf j0) + length (concat (map (ent tf) l))).
  { rewrite EJ. cbn [map]. apply concat_length_cons. }
  assert (Eoffs : offs = N.of_nat base :: offs_of (base + length (ent tf j0)) (map (ent tf) l)) by (unfold offs; rewrite EJ; reflexivity).
  assert (Etab : forall z, flat_map le32 (offs ++ repeat 0%N z) = le32 (N.of_nat base) ++ flat_map le32 (offs_of (base + length (ent tf j0)) (map (ent tf) l) ++ repeat 0%N z))
    by (intros z; rewrite Eoffs; reflexivity).
  match goal with |- context [read_le32 ?x] => replace x with (le32 (N.of_nat base) ++ flat_map le32 (offs_of (base + length (ent tf j0)) (map (ent tf) l) ++ repeat 0%N (table - length offs)) ++ concat (map (ent tf) J))
    by (rewrite app_assoc, <- Etab; reflexivity) end.
  rewrite read_le32_app by (clear - Htot; lia). cbn [obind].
  replace (N.of_nat base <? 8)%N with false by (symmetry; apply N.ltb_ge; unfold base; clear; lia).
  assert (Enum : N.to_nat ((N.of_nat base - 8) / 4) = table).
  { unfold base. replace (N.of_nat (8 + 4 * table) - 8)%N with (N.of_nat table * 4)%N by (clear; lia). rewrite N.div_mul by discriminate. apply Nat2N.id. }
  rewrite Enum.
  replace (table - 1) with (length (map (ent tf) l) + (table - length offs)).
  2: { rewrite map_length, Loffs. rewrite EJ in LJ. cbn [length] in LJ. unfold table. clear - LJ Hn2. lia. }
  change (flat_map le32 (offs_of (base + length (ent tf j0)) (map (ent tf) l) ++ repeat 0%N (table - length offs)) ++ concat (map (ent tf) J))
    with (flat_map le32 (offs_of (base + length (ent tf j0)) (map (ent tf) l) ++ repeat 0%N (table - length offs)) ++ concat (map (ent tf) J)).
  rewrite (table_loop (map (ent tf) l) (table - length offs) base (ent tf j0) [] (concat (map (ent tf) J)) (length (H ++ concat (map (ent tf) J)))).
  2: { intros x Hx. change (ent tf j0 :: map (ent tf) l) with (map (ent tf) (j0 :: l)) in Hx. rewrite <- EJ in Hx. apply in_map_iff in Hx as (j & <- & Hj).
       rewrite Forall_forall in Ffit. pose proof (entry_bound tf j (Ffit j Hj)) as B. clear - B. lia. }
  2: { unfold base. clear. lia. }
  2: { rewrite app_length, LH, Hbody. clear. lia. }
  2: { rewrite app_length, LH. exact Htot. }
  cbn [obind app].
  assert (HJn : length J <= 512) by (rewrite LJ; clear - Hn2 Hheads; destruct Hheads as [-> | ->]; lia).
  set (st0 := mkFS di_default None 0 0).
  assert (I0 : inv rpm heads J (length (@nil Job)) st0 ([], [])).
  { assert (E00 : 0 / heads = 0 /\ 0 mod heads = 0) by (clear - Hheads; destruct Hheads as [-> | ->]; split; reflexivity).
    destruct E00 as [E0 E1]. constructor; cbn [length st0 fs_img fs_rpm fs_h fs_c].
    - apply empty_wf; reflexivity.
    - split; [reflexivity|left; reflexivity].
    - intros Z. inversion Z.
    - reflexivity.
    - rewrite E1. reflexivity.
    - rewrite E0. reflexivity.
    - intros h Hh. unfold at_pos. assert (Eh : h = 0 \/ h = 1) by (clear - Hh Hheads; lia).
      destruct Hheads as [-> | ->], Eh as [-> | ->]; reflexivity.
    - reflexivity.
    - intros k j Hk. inversion Hk. }
  destruct (load_loop rnd bitlen other fl (dd_rate dd) rpm heads J H Hheads Fl3 Hrate Hrpm Fok HJn J [] st0 _ eq_refl I0)
    as (st' & s' & E & [Iwf Ires Iresb Irpm Ih Ic Ilen Ione Itr]).
  fold tf in E. cbn [map concat length] in E. rewrite Nat.add_0_r, LH in E.
  change (ent tf j0 :: map (ent tf) l) with (map (ent tf) (j0 :: l)). rewrite <- EJ. rewrite E. cbn [obind].
  assert (Edc : fs_c st' = N.of_nat (stored_cyls cyls)).
  { rewrite Ic, LJ. unfold n. rewrite Nat.div_mul by exact Hh0. reflexivity. }
  assert (Elen : forall h, h < heads -> length (side s' (N.of_nat h)) = stored_cyls cyls).
  { intros h Hh. rewrite Ilen by exact Hh. unfold at_pos. rewrite LJ. unfold n.
    rewrite Nat.add_comm, Nat.div_add by exact Hh0. rewrite Nat.div_small; [reflexivity|]. clear - Hh Hheads. lia. }
  rewrite Edc, Fl7, Fl8, Irpm.
  replace (length J =? 0) with false by (symmetry; apply Nat.eqb_neq; clear - LJ Hn1; lia).
  destruct Fl3 as [_ Ff3 _ _ _ _]. rewrite Ff3.
  exists (with_geom (fs_img st') (mkCh (N.of_nat (stored_cyls cyls)) (N.of_nat heads))), s'. split.
  { f_equal. f_equal.
    - f_equal. f_equal. clear - Hheads. destruct Hheads as [-> | ->]; reflexivity.
    - f_equal.
      + unfold den. assert (Ed : (dd_density dd = 0 \/ dd_density dd = 1)%N) by (clear - Hden; lia). destruct Ed as [-> | ->]; reflexivity.
      + f_equal. unfold wp. destruct (dd_write_protect dd) as [[]|]; reflexivity. }
  split; [exact (proj1 Iwf)|]. split; [exact (wf_shows _ _ (wf_ext (fs_img st') (with_geom (fs_img st') _) s' eq_refl eq_refl eq_refl Iwf))|].
  split; [apply Iresb; rewrite LJ; exact Hn1|]. split; [reflexivity|].
  split; [apply (Elen 0); clear - Hheads; lia|]. split.
  { destruct Hheads as [E1 | E1].
    - rewrite (Ione E1), E1. reflexivity.
    - assert (H1 : 1 < heads) by (clear - E1; lia). rewrite E1. cbn [Nat.eqb]. rewrite <- (Elen 1 H1). reflexivity. }
  intros c h Hc Hh. set (i := c * heads + h).
  assert (Ei1 : i / heads = c) by (unfold i; rewrite Nat.div_add_l by exact Hh0; rewrite Nat.div_small by exact Hh; apply Nat.add_0_r).
  assert (Ei2 : i mod heads = h) by (unfold i; rewrite Nat.add_comm, Nat.mod_add by exact Hh0; apply Nat.mod_small; exact Hh).
  assert (Hi : i < length J).
  { rewrite LJ. unfold i, n. clear - Hc Hh. nia. }
  destruct (nth_error J i) as [j|] eqn:Ej; [|apply nth_error_None in Ej; clear - Ej Hi; lia].
  destruct (HJ _ _ Ej) as (_ & _ & Es & Ehole). rewrite Ei1, Ei2 in Es, Ehole.
  destruct (Itr i j Hi Ej) as (t' & Et' & K & Kch). rewrite Ei1, Ei2 in Et', Kch.
  exists (snd j), t'. rewrite <- Ehole. auto.
Qed.

(* Consequences of `kept`. A track without weak cells is restored exactly, *)
Theorem C51_no_weak : forall hole t t', (forall i, i < length (cells t) -> weak_cell t i = false) -> kept hole t t' ->
  cells t' = cells t /\ forall i, i < length (cells t) -> weak_cell t' i = false.
Proof.
  intros hole t t' Hw [Hc Hk]. split.
  - rewrite Hc. apply nth_ext' with false false; [rewrite map_length, seq_length; reflexivity|].
    intros i Hi. rewrite map_length, seq_length in Hi. rewrite nth_map_seq by exact Hi. rewrite Hw by exact Hi. fold (cell t i).
    destruct hole, (cell t i); reflexivity.
  - intros i Hi. rewrite Hk by exact Hi. unfold surface_cell. destruct (Nat.even (octets t)); [rewrite Hw by exact Hi; reflexivity|].
    rewrite Hw by (clear - Hi; lia). rewrite Bool.andb_false_r. reflexivity.
Qed.
(* and one with an even number of bytes (outside Prolok cylinder 39) keeps its weak cells, and every other cell. *)
Theorem C51_weak : forall t t', Nat.even (octets t) = true -> kept false t t' ->
  length (cells t') = length (cells t) /\
  forall i, i < length (cells t) -> weak_cell t' i = weak_cell t i /\ (weak_cell t i = false -> cell t' i = cell t i).
Proof.
  intros t t' He [Hc Hk]. split; [rewrite Hc, map_length, seq_length; reflexivity|]. intros i Hi.
  assert (E : cell t' i = cell t i || weak_cell t i) by (unfold cell at 1; rewrite Hc, nth_map_seq by exact Hi; reflexivity).
  rewrite Hk by exact Hi. unfold surface_cell. rewrite He, E. split.
  - destruct (cell t i), (weak_cell t i); reflexivity.
  - intros ->. apply Bool.orb_false_r.
Qed.
(* The hypothesis `f86_loadable` holds for a track without weak cells that can be loaded from its cells (`loadable`, C35). *)
Lemma to_bytes_zero l j : (forall i, nth i l false = false) -> nth j (to_bytes l) 0%N = 0%N.
Proof.
  intros H. pose proof (to_bytes_ok l) as Ok. destruct (Nat.lt_ge_cases j (length (to_bytes l))) as [Hj|Hj]; [|apply nth_overflow; exact Hj].
  assert (Hb : (nth j (to_bytes l) 0 < 2 ^ 8)%N).
  { apply bytes_ok_Forall in Ok. rewrite Forall_forall in Ok. apply Ok, nth_In, Hj. }
  apply N.bits_inj. intros k. rewrite N.bits_0. destruct (N.lt_ge_cases k 8) as [Hk|Hk].
  - set (r := N.to_nat k). pose proof (byte_of_cells l (8 * j + (7 - r))) as E. rewrite H in E.
    assert (Hr : r < 8) by (unfold r; clear - Hk; lia).
    assert (E1 : (8 * j + (7 - r)) / 8 = j) by (rewrite Nat.mul_comm, Nat.div_add_l by discriminate; rewrite Nat.div_small by lia; lia).
    assert (E2 : (8 * j + (7 - r)) mod 8 = 7 - r) by (rewrite Nat.add_comm, Nat.mul_comm, Nat.mod_add by discriminate; apply Nat.mod_small; lia).
    rewrite E1, E2 in E. replace (7 - (7 - r)) with r in E by lia. unfold r in E. rewrite N2Nat.id in E. exact E.
  - destruct (N.eq_dec (nth j (to_bytes l) 0%N) 0) as [->|Hne]; [apply N.bits_0|]. apply N.bits_above_log2.
    apply N.lt_le_trans with 8%N; [|exact Hk]. apply N.log2_lt_pow2; [lia|exact Hb].
Qed.
Theorem C51_unweak_loadable : forall rnd hole t, loadable rnd t -> (forall i, weak_cell t i = false) -> f86_loadable rnd hole t.
Proof.
  intros rnd hole t [t' H] Hw. exists t'.
  assert (Ec : file_cells hole t = to_bytes (cells t)).
  { apply nth_ext' with 0%N 0%N; [apply file_cells_length|]. intros j Hj. rewrite file_cells_length in Hj.
    unfold file_cells. rewrite nth_map_seq by exact Hj. cbv zeta. rewrite (to_bytes_zero (weak_cells t)) by exact Hw.
    destruct hole; [apply N.ldiff_0_r|apply N.lor_0_r]. }
  assert (Ew : file_weak hole t = None).
  { unfold file_weak. cbv zeta. replace (forallb _ _) with true; [reflexivity|]. symmetry. apply forallb_forall. intros x Hx.
    apply in_map_iff in Hx as (j & <- & Hj). apply in_seq in Hj. apply N.eqb_eq.
    assert (Es : nth j (file_surface t) 0%N = 0%N).
    { unfold file_surface. rewrite nth_map_seq by (destruct Hj; assumption).
      destruct (Nat.even _); [apply to_bytes_zero; exact Hw|]. destruct j; [reflexivity|apply to_bytes_zero; exact Hw]. }
    rewrite Es. reflexivity. }
  rewrite Ec, Ew. exact H.
Qed.

(* Findings. Images without tracks on the second head cannot be saved, also when their geometry has one head *)
Theorem C51_one_sided_refuted : forall d dd file, length (di_map1 d) < N.to_nat (ch_c (di_geom d)) -> f86_save d dd <> Ok file.
Proof.
  intros d dd file H. unfold f86_save. destruct (_ || _); [discriminate|]. destruct (di_has_weak d); cbn [obind]; try discriminate.
  match goal with |- obind ?e _ <> _ => destruct e end; cbn [obind]; try discriminate.
  match goal with |- obind ?e _ <> _ => destruct e end; cbn [obind]; try discriminate.
  cbv zeta. apply Nat.ltb_lt in H. rewrite H, Bool.orb_true_r. discriminate.
Qed.
(* extended density images are saved but not loaded again *)
Theorem C51_extended_density_refuted : forall rnd bitlen other d dd file, dd_density dd = 2%N -> f86_save d dd = Ok file ->
  f86_load_image rnd bitlen other di_default file = Err UnsupportedFormat.
Proof.
  intros rnd bitlen other d dd file Hd. unfold f86_save. rewrite Hd. destruct (_ || _); [discriminate|].
  destruct (di_has_weak d) as [w| |]; cbn [obind]; try discriminate.
  match goal with |- obind ?e _ = _ -> _ => destruct e as [sides| |] eqn:Es end; cbn [obind]; try discriminate.
  cbv zeta. destruct (_ || _); [discriminate|].
  match goal with |- obind ?e _ = _ -> _ => destruct e as [rate| |] end; cbn [obind]; try discriminate.
  match goal with |- obind ?e _ = _ -> _ => destruct e as [[offs body]| |] end; cbn [obind]; try discriminate.
  intros E. set (fl := (((if w then 1 else 0) + 4 + sides + 0x80 + 0x1000 + match dd_write_protect dd with Some true => 16 | _ => 0 end))%N) in E.
  assert (Hs : (sides = 0 \/ sides = 8)%N).
  { clear - Es. destruct (ch_h (di_geom d)) as [|[p|[p|p|]|]]; try discriminate; injection Es as <-; auto. }
  assert (F : (fl < 65536)%N /\ N.testbit (N.land fl 0x19FF) 2 = true).
  { unfold fl. clear - Hs. destruct w, Hs as [-> | ->], (dd_write_protect dd) as [[]|]; split; reflexivity. }
  destruct F as [F1 F2]. remember fl as f eqn:Ef. clear Ef fl.
  assert (Ef : file = [0x38; 0x36; 0x42; 0x46; 0x0C; 0x02]%N ++ le16 f ++
     (flat_map le32 (offs ++ repeat 0%N (F86_TRACK_TABLE_LEN_PER_HEAD * N.to_nat (ch_h (di_geom d)) - length offs)) ++ body)) by congruence.
  rewrite Ef. unfold f86_load_image. rewrite read_exact_app' by reflexivity. cbn [obind]. rewrite read_le16_app by exact F1. cbn [obind].
  cbv zeta. rewrite F2. reflexivity.
Qed.
(* the loader does not look at the file identifier, and panics when the first track offset is below 8 *)
Theorem C51_offset_panics_refuted : forall rnd bitlen other d id fl first rest, length id = 6 -> (fl < 0x100)%N ->
  N.testbit fl 2 = false -> (first < 8)%N ->
  f86_load_image rnd bitlen other d (id ++ le16 fl ++ le32 first ++ rest) = Panic.
Proof.
  intros rnd bitlen other d id fl first rest Hid Hfl H2 Hf. unfold f86_load_image. rewrite read_exact_app' by exact Hid. cbn [obind].
  rewrite read_le16_app by (clear - Hfl; lia). cbn [obind]. cbv zeta. rewrite !N.land_spec, H2. cbn [andb].
  assert (Hhi : forall k, (8 <= k)%N -> N.testbit fl k = false).
  { intros k Hk. destruct (N.eq_dec fl 0) as [->|Hne]; [apply N.bits_0|]. apply N.bits_above_log2.
    apply N.lt_le_trans with 8%N; [|exact Hk]. apply N.log2_lt_pow2; [lia|exact Hfl]. }
  rewrite (Hhi 8%N), (Hhi 11%N) by lia. cbn [andb].
  rewrite read_le32_app by (clear - Hf; lia). cbn [obind]. apply N.ltb_lt in Hf. rewrite Hf. reflexivity.
Qed.
(* so an image without cylinders is saved to a file that panics the loader *)
Definition f86_zero_rnd : Rnd := mkRnd (fun _ => 0%N) (fun _ => false) (fun _ _ => 0%N).
Definition ex_desc : DiskDesc := mkDesc 0 2 1 (Some 0%N) None false.
Definition no_lens : N -> N -> N -> N -> bool -> Z -> N := fun _ _ _ _ _ _ => 0%N.
Definition no_other : N -> DiskImage -> DiskCh -> list N -> option (list N) -> nat -> DiskImage * outcome nat := fun _ d _ _ _ _ => (d, Err UnsupportedFormat).
Theorem C51_no_cylinders_refuted : exists file, f86_save (with_geom (set_resolution di_default RBitStream) (mkCh 0 2)) ex_desc = Ok file /\
  f86_load_image f86_zero_rnd no_lens no_other di_default file = Panic.
Proof.
  exists ([0x38; 0x36; 0x42; 0x46; 0x0C; 0x02]%N ++ le16 0x1088 ++ flat_map le32 (repeat 0%N (F86_TRACK_TABLE_LEN_PER_HEAD * 2))).
  split.
  - unfold f86_save. change (di_has_weak _) with (Ok false). cbn [with_geom set_resolution di_res di_geom ch_h ch_c obind ex_desc dd_density dd_rate dd_write_protect].
    unfold f86_entries. reflexivity.
  - unfold f86_load_image. rewrite read_exact_app' by reflexivity. cbn [obind]. rewrite read_le16_app by reflexivity. cbn [obind].
    unfold F86_TRACK_TABLE_LEN_PER_HEAD. change (repeat 0%N (256 * 2)) with (0%N :: repeat 0%N 511). cbn [flat_map].
    rewrite read_le32_app by reflexivity. reflexivity.
Qed.

(* an image with one cylinder, of `n` bytes 0x52 with 16 weak cells *)
Definition ex_track (n : nat) : BitTrack :=
  mkTrack (mkCh 0 0)
    (mkMfm (ring_from (flat_map byte_bits (repeat 0x52%N n))) (ring_set_wrap_value (ring_from (repeat true (8 * n))) (Some false))
           (ring_from (repeat false (8 * n))) true (ring_from (repeat false 40 ++ repeat true 16 ++ repeat false (8 * n - 56))) 1 1 [] [])
    meta_default false.
Definition ex_image (n : nat) : DiskImage :=
  with_geom (push_track (push_track (with_res di_default [RBitStream]) 0 (TBit (ex_track n))) 1 (TBit (ex_track n))) (mkCh 1 2).
Lemma ex_12 : f86_track_ok f86_zero_rnd false (ex_track 12).
Proof.
  unfold f86_track_ok. split; [vm_compute; reflexivity|]. split; [vm_compute; reflexivity|]. split; [vm_compute; discriminate|].
  split; [vm_compute; discriminate|]. split; [vm_compute; reflexivity|].
  assert (E : match bt_new (rnd_bit f86_zero_rnd) (bt_ch (ex_track 12)) (file_cells false (ex_track 12)) (file_weak false (ex_track 12))
                (Some (length (cells (ex_track 12)))) false with Ok _ => true | _ => false end = true) by (vm_compute; reflexivity).
  unfold f86_loadable. destruct (bt_new _ _ _ _ _ _) as [t| |]; [exists t; reflexivity|discriminate|discriminate].
Qed.
Lemma ex_13 : f86_track_ok f86_zero_rnd false (ex_track 13).
Proof.
  unfold f86_track_ok. split; [vm_compute; reflexivity|]. split; [vm_compute; reflexivity|]. split; [vm_compute; discriminate|].
  split; [vm_compute; discriminate|]. split; [vm_compute; reflexivity|].
  assert (E : match bt_new (rnd_bit f86_zero_rnd) (bt_ch (ex_track 13)) (file_cells false (ex_track 13)) (file_weak false (ex_track 13))
                (Some (length (cells (ex_track 13)))) false with Ok _ => true | _ => false end = true) by (vm_compute; reflexivity).
  unfold f86_loadable. destruct (bt_new _ _ _ _ _ _) as [t| |]; [exists t; reflexivity|discriminate|discriminate].
Qed.
Lemma ex_ok n : n = 12 \/ n = 13 -> f86_image f86_zero_rnd (ex_image n) ex_desc ([TBit (ex_track n)], [TBit (ex_track n)]) 1 2.
Proof.
  intros Hn.
  assert (W : wf (ex_image n) ([TBit (ex_track n)], [TBit (ex_track n)])).
  { eapply wf_ext; [reflexivity|reflexivity|reflexivity|].
    apply (push_wf _ ([TBit (ex_track n)], []) 1); [|reflexivity].
    apply (push_wf (with_res di_default [RBitStream]) ([], []) 0); [apply with_res_wf, empty_wf; reflexivity|reflexivity]. }
  constructor.
  - exact (proj1 W).
  - apply wf_shows. exact W.
  - reflexivity.
  - reflexivity.
  - auto.
  - auto.
  - split; apply le_n.
  - intros c h Hc Hh. exists (ex_track n). assert (c = 0) by lia. subst c.
    split; [assert (E : h = 0 \/ h = 1) by lia; destruct E as [-> | ->]; reflexivity|].
    change (is_hole ex_desc 0 h) with false.
    destruct Hn as [-> | ->]; [exact ex_12|exact ex_13].
  - vm_compute. discriminate.
  - vm_compute. discriminate.
  - reflexivity.
Qed.
Example C51_ex : f86_image f86_zero_rnd (ex_image 12) ex_desc ([TBit (ex_track 12)], [TBit (ex_track 12)]) 1 2.
Proof. apply ex_ok. auto. Qed.
(* a track of 13 bytes: the weak cells come back in a different place, and the data below them is lost *)
Theorem C51_odd_track_refuted : forall t', kept false (ex_track 13) t' ->
  cells t' <> cells (ex_track 13) /\ (exists i, i < length (cells (ex_track 13)) /\ weak_cell (ex_track 13) i = true /\ weak_cell t' i = false) /\
  (exists i, i < length (cells (ex_track 13)) /\ weak_cell (ex_track 13) i = false /\ weak_cell t' i = true).
Proof.
  intros t' [Hc Hk]. split; [|split].
  - rewrite Hc. vm_compute. discriminate.
  - exists 40. split; [vm_compute; lia|]. split; [reflexivity|]. rewrite Hk by (vm_compute; lia). reflexivity.
  - exists 57. split; [vm_compute; lia|]. split; [reflexivity|]. rewrite Hk by (vm_compute; lia). unfold cell. rewrite Hc. reflexivity.
Qed.

Print Assumptions C51_roundtrip.
Print Assumptions C51_no_weak.
Print Assumptions C51_weak.
Print Assumptions C51_unweak_loadable.
Print Assumptions C51_one_sided_refuted.
Print Assumptions C51_extended_density_refuted.
Print Assumptions C51_offset_panics_refuted.
Print Assumptions C51_no_cylinders_refuted.
Print Assumptions C51_odd_track_refuted.
