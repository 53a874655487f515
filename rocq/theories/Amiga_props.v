(* Amiga_props.v - C74, C75: bit tracks with both schemas compiled in, and Amiga tracks. *)
From Verif Require Import Base Base_lemmas Chs_model BitRing_model BitRing_proofs Mfm_model Mfm_spec Mfm_proofs Codec_lemmas
  Crc_model Types_model System34_model BitStream_model OddEven_model Amiga_model Amiga_spec Amiga_proofs Amiga2_proofs
  Bs_more_proofs BitStream2_props Total_spec Total_proofs Total_props Amiga3_proofs Amiga4_proofs Amiga5_proofs.
From Coq Require Import Lia.

(* ---- C74: the default build ---- *)
Definition any_cells (k : AnyTrack) : list bool :=
  match k with TkSystem34 t => mfm_data (bt_data t) | TkAmiga t => mfm_data (at_data t) end.
(* Wherever the System 34 scanner finds a mark (and where making the track fails), having the Amiga schema
   compiled in changes nothing. *)
Theorem C74_default : forall rnd ch data weak ct detect pref, pref <> Some SchAmiga ->
  match bt_new rnd ch data weak ct detect with
  | Ok t => bt_schema t = true -> any_new rnd ch data weak ct detect pref = Ok (TkSystem34 t)
  | Err e => any_new rnd ch data weak ct detect pref = Err e
  | Panic => any_new rnd ch data weak ct detect pref = Panic
  end.
Proof.
  intros rnd ch data weak ct dw pref Hp. rewrite bt_new_stream. unfold any_new. destruct (new_stream data weak ct dw) as [m|e|]; cbn [obind]; try reflexivity.
  assert (Eo : schema_order pref = [SchSystem34; SchAmiga]) by (destruct pref as [[|]|]; [reflexivity|congruence|reflexivity]). rewrite Eo. cbn [try_schemas]. rewrite s34_try.
  destruct (bt_finish rnd ch m) as [t|e|]; cbn [obind]; [intros Ht; rewrite Ht|..]; reflexivity.
Qed.
(* Any cells can be loaded, with either schema preferred, unless the first System 34 mark is at the first cell. *)
Theorem C74_any : forall rnd ch data weak ct detect pref, data <> [] \/ ct <> None -> match weak with Some w => length w = length data /\ data <> [] | None => True end ->
  (exists k, any_new rnd ch data weak ct detect pref = Ok k /\ any_cells k = input_cells data ct /\ (pref <> Some SchAmiga -> ~ mark_first (input_cells data ct))) \/
  (any_new rnd ch data weak ct detect pref = Panic /\ mark_first (input_cells data ct)).
Proof.
  intros rnd ch data weak ct dw pref Hd Hw. destruct (stream_total data weak ct dw Hd Hw) as (m & Em & Dm & Rm). unfold any_new. rewrite Em. cbn [obind].
  pose proof (finish_total rnd ch m Rm) as F. rewrite Dm in F. pose proof (am_try_total rnd ch m Rm) as A.
  assert (Am : (exists k, try_schema rnd ch m SchAmiga = Ok (Some k) /\ any_cells k = input_cells data ct) \/ try_schema rnd ch m SchAmiga = Ok None).
  { destruct A as [A|(t & A & B & _)]; [right; exact A|left]. exists (TkAmiga t). split; [exact A|]. cbn [any_cells]. rewrite B. exact Dm. }
  assert (Sm : (exists k, try_schema rnd ch m SchSystem34 = Ok (Some k) /\ any_cells k = input_cells data ct /\ ~ mark_first (input_cells data ct)) \/
               (try_schema rnd ch m SchSystem34 = Ok None /\ ~ mark_first (input_cells data ct)) \/ (try_schema rnd ch m SchSystem34 = Panic /\ mark_first (input_cells data ct))).
  { rewrite s34_try. destruct F as [[M E]|(M & t & E & D & _)]; rewrite E; [right; right; split; [reflexivity|exact M]|]. destruct (bt_schema t) eqn:Es.
    - left. exists (TkSystem34 t). split; [reflexivity|]. split; [exact D|exact M].
    - right. left. split; [reflexivity|exact M]. }
  assert (Fm : any_cells (TkSystem34 (mkTrack ch m meta_default false)) = input_cells data ct) by exact Dm.
  assert (Order : schema_order pref = [SchAmiga; SchSystem34] /\ pref = Some SchAmiga \/ schema_order pref = [SchSystem34; SchAmiga]).
  { destruct pref as [[|]|]; [right|left; split|right]; reflexivity. }
  destruct Order as [[-> Pa]| ->]; cbn [try_schemas].
  - destruct Am as [(k & -> & Ck)| ->]; cbn [obind]; [left; exists k; split; [reflexivity|split; [exact Ck|intros X; congruence]]|].
    destruct Sm as [(k & -> & Ck & M)|[[-> M]|[-> M]]]; cbn [obind]; [left|left|right].
    + exists k. split; [reflexivity|]. split; [exact Ck|intros _; exact M].
    + eexists. split; [reflexivity|]. split; [exact Fm|intros _; exact M].
    + split; [reflexivity|exact M].
  - destruct Sm as [(k & -> & Ck & M)|[[-> M]|[-> M]]]; cbn [obind]; [left|left|right].
    + exists k. split; [reflexivity|]. split; [exact Ck|intros _; exact M].
    + destruct Am as [(k & -> & Ck)| ->]; cbn [obind]; eexists; (split; [reflexivity|split; [assumption|intros _; exact M]]).
    + split; [reflexivity|exact M].
Qed.

(* ---- Amiga tracks ---- *)
Lemma recorded_wide ss : Forall recorded ss -> exists W, wide W ss /\ 64 < W.
Proof.
  intros H. destruct ss as [|s t]; [exists 65; split; [constructor|lia]|].
  assert (exists K, K = 512) as [K HK] by (eexists; reflexivity).
  exists (32 + (160 + 64 + 8 * K)). split; [|lia]. unfold wide. eapply Forall_impl; [|exact H]. cbv beta. intros x Hx. rewrite sec_ann_length, sector_bits_length by exact Hx.
  destruct Hx as (_ & _ & _ & _ & _ & -> & _). rewrite HK. reflexivity.
Qed.
Definition loaded_from (t : AmTrack) (ss : list asector) : Prop :=
  exists W lead, at_items t = items_from W lead 0 ss /\ at_ids t = map id_of ss /\
    forall i s, nth_error ss i = Some s -> holds_at (at_data t) (mark_at W lead i + 32) (sector_bits s).
Lemma load_gen rnd ch data ct detect pref lead ss tail : ss <> [] -> Forall recorded ss -> input_cells data ct = amiga_track lead ss tail ->
  exists t, any_new rnd ch data None ct detect pref = Ok (TkAmiga t) /\ mfm_data (at_data t) = amiga_track lead ss tail /\ loaded_from t ss.
Proof.
  intros Hn Hr Hi. destruct (recorded_wide ss Hr) as (W & HW & HW64).
  destruct (am_load W lead ss tail HW HW64 Hr rnd ch data ct detect pref Hn Hi) as (m & E & D & Hh).
  eexists. split; [exact E|]. split; [exact D|]. exists W, lead. cbn [at_items at_ids at_data]. split; [reflexivity|]. split; [apply ids_items|exact Hh].
Qed.
Lemma loaded_list t ss : loaded_from t ss -> am_sector_list (at_items t) = map (fun s => mkEntry (id_of s) (mkAttr (bad_header s) (bad_data s) false false)) ss.
Proof. intros (W & lead & -> & _). apply list_items. Qed.
(* The cells of Amiga sectors, with any MFM data around them: the track has the cells given, and lists exactly
   the sectors recorded; a sector has an error where the recorded checksum is not that of what is recorded. *)
Theorem C74_load : forall rnd ch data ct detect pref lead ss tail, ss <> [] -> Forall recorded ss -> Forall plain_label ss ->
  input_cells data ct = amiga_track lead ss tail ->
  exists t, any_new rnd ch data None ct detect pref = Ok (TkAmiga t) /\ mfm_data (at_data t) = amiga_track lead ss tail /\
    at_ids t = map id_of ss /\
    am_sector_list (at_items t) = map (fun s => mkEntry (id_of s) (mkAttr (negb (as_header_sum s =? header_sum s)%N) (negb (as_data_sum s =? data_sum s)%N) false false)) ss.
Proof.
  intros rnd ch data ct dw pref lead ss tail Hn Hr Hl Hi. destruct (load_gen rnd ch data ct dw pref lead ss tail Hn Hr Hi) as (t & E & D & L).
  exists t. split; [exact E|]. split; [exact D|]. split; [destruct L as (W & ld & _ & L & _); exact L|]. rewrite (loaded_list t ss L).
  apply map_ext_in. intros s Hs. rewrite Forall_forall in Hr, Hl. unfold bad_header, bad_data. rewrite (short_full s (Hr s Hs) (Hl s Hs)). reflexivity.
Qed.
(* The sector a request names: the first one on the track that it matches. *)
Definition named (q : DiskChsnQuery) (ss : list asector) (i : nat) (s : asector) : Prop :=
  nth_error ss i = Some s /\ query_matches q (id_of s) = true /\ forall j s', j < i -> nth_error ss j = Some s' -> query_matches q (id_of s') = false.
Lemma find_named t ss q i s : loaded_from t ss -> named q ss i s ->
  am_find_sector_element q (at_items t) 0 = Found (2 * i + 1) (id_of s) (bad_header s) (bad_data s) false false false /\
  exists p, nth_error (at_items t) (2 * i + 1) = nth_error (sector_elems p s) 1 /\ holds_at (at_data t) (p + 32) (sector_bits s).
Proof.
  intros (W & lead & Hit & _ & Hh) (Hs & Hq & Hno). rewrite Hit. split.
  - unfold am_find_sector_element. rewrite (find_here W lead q ss 0 0 false false false i s Hs Hq Hno). reflexivity.
  - exists (mark_at W lead i). split; [exact (item_at W lead ss 0 i s Hs)|exact (Hh i s Hs)].
Qed.
Lemma sp_inj x y : length x = length y -> sp x = sp y -> x = y.
Proof.
  intros Hl H. unfold sp in H. apply bits_val_inj in H; [|rewrite !(flat_map_const_length _ 2) by reflexivity; rewrite Hl; reflexivity].
  revert y Hl H. induction x as [|a x IH]; intros [|b y] Hl H; try discriminate Hl; [reflexivity|]. cbn [flat_map app] in H. injection H as -> H. f_equal. apply IH; [injection Hl as Hl; exact Hl|exact H].
Qed.
Lemma even_val v : (v < 2 ^ 32)%N -> N.land v 0x55555555 = sp (flat_map even_bits (long v)) /\ length (flat_map even_bits (long v)) = 16.
Proof.
  intros Hv. destruct (long_val v Hv) as (a & b & c & d & L & Ha & Hb & Hc & Hd & E). rewrite L. rewrite E at 1. split; [|reflexivity]. rewrite land_be32 by assumption.
  destruct (four_bytes_sp (flat_map even_bits [a; b; c; d]) eq_refl) as (p & q & r & s & Hp & Hq & Hr & Hs & E2 & L2 & O & V).
  assert (G : forall u, (u < 256)%N -> N.land u 0x55 = sp (even_bits u)).
  { intros u Hu. apply N.eqb_eq. apply (byte_facts (fun u => N.land u 0x55 =? sp (even_bits u))%N); [vm_compute; reflexivity|exact Hu]. }
  assert (K : forall u, (u < 256)%N -> odd_bits u = [false; false; false; false] -> sp (even_bits u) = u).
  { intros u Hu Ho. rewrite <- (join_byte' u Hu) at 2. rewrite Ho. reflexivity. }
  rewrite !G by assumption. rewrite E2. unfold odd_bits at 1 in O. unfold odd_bits in O. unfold even_bits in V. cbn [flat_map app] in O, V.
  injection O as O1 O2 O3 O4 O5 O6 O7 O8 O9 O10 O11 O12 O13 O14 O15 O16. injection V as V1 V2 V3 V4 V5 V6 V7 V8 V9 V10 V11 V12 V13 V14 V15 V16.
  rewrite <- (K p), <- (K q), <- (K r), <- (K s) by (try assumption; unfold odd_bits; congruence). unfold even_bits. congruence.
Qed.
Lemma even_cmp v x : (v < 2 ^ 32)%N -> length x = 16 -> as_u16 (bits_val (block (long v))) = as_u16 (bits_val x) <-> N.land v 0x55555555 = sp x.
Proof.
  intros Hv Hx. destruct (even_val v Hv) as (E & Le). rewrite E. unfold block. rewrite bits_val_app, Le. unfold as_u16. change (N.of_nat 16) with 16%N.
  rewrite N.add_comm, N.mod_add by discriminate. pose proof (bits_val_lt (flat_map even_bits (long v))) as B1. pose proof (bits_val_lt x) as B2. rewrite Le in B1. rewrite Hx in B2.
  rewrite !N.mod_small by assumption. split; intros H.
  - apply bits_val_inj in H; [|rewrite Le, Hx; reflexivity]. rewrite H. reflexivity.
  - f_equal. apply sp_inj; [rewrite Le, Hx; reflexivity|exact H].
Qed.
(* Reading a sector with a good header gives exactly the 512 bytes recorded, with a data error exactly where the
   data checksum is wrong. *)
Lemma read_named rnd t ss q i s : loaded_from t ss -> recorded s -> named q ss i s -> bad_header s = false ->
  exists r, am_read_sector rnd t q None None DataOnly false = Ok r /\ rs_not_found r = false /\ rs_id r = Some (id_of s) /\
    rs_address_crc_error r = false /\ rs_data_crc_error r = bad_data s /\ rs_deleted r = false /\ read_data_of r = Ok (as_bytes s) /\
    (exists crc, rs_data_crc r = Some crc /\ (integrity_valid crc = true <-> N.land (as_data_sum s) 0x55555555 = data_sum s)) /\
    rs_wrong_cylinder r = false /\ rs_bad_cylinder r = false /\ rs_wrong_head r = false.
Proof.
  intros L Hr Hq Hb. destruct (find_named t ss q i s L Hq) as (Ef & p & Ei & Hp). unfold am_read_sector, off_of. rewrite Ef, Hb. cbn [andb].
  unfold oindex. rewrite Ei. destruct (nth_error (sector_elems p s) 1) as [x|] eqn:Ex; [|discriminate Ex]. cbn [obind].
  destruct (decode_data rnd (at_data t) p s x Hr Hp Ex) as (hd & crc & Ed & Lh & x0 & Lx0 & Dx0 & Hcrc).
  assert (Hx : ai_elem x = AmData (id_of s) (bad_header s) (bad_data s)) by (injection Ex as <-; reflexivity).
  assert (I6 : length (as_bytes s) = 512) by apply Hr.
  assert (LN : n_size (id_of s) = 512) by reflexivity. rewrite LN, Hx.
  assert (Sz : am_size (AmData (id_of s) (bad_header s) (bad_data s)) = 4 + 512) by reflexivity.
  assert (Rg : am_range (AmData (id_of s) (bad_header s) (bad_data s)) DataOnly = (4, 4 + 512)) by reflexivity.
 cbv zeta. rewrite Rg, Sz. clear Rg LN Ef Ei Sz Hx Ex. remember 512 as K eqn:HK. clear HK. cbn [fst snd].
  replace (K + (4 + K - (4 + K - 4))) with (4 + K) by lia. rewrite Ed. cbn [obind].
  eexists. split; [reflexivity|]. cbn [rs_not_found rs_id rs_address_crc_error rs_data_crc_error rs_deleted rs_data_crc rs_wrong_cylinder rs_bad_cylinder rs_wrong_head]. do 5 (split; [reflexivity|]).
  split; [|split; [exists crc; split; [reflexivity|]; rewrite Hcrc, Dx0; unfold integrity_valid; cbn [in_recorded in_calculated]; rewrite N.eqb_eq; apply even_cmp; [apply Hr|exact Lx0]|repeat split]].
  unfold read_data_of. cbn [rs_range rs_buf]. rewrite app_length, Lh, I6.
  destruct (Nat.ltb_spec (4 + K) 4); [lia|]. destruct (Nat.ltb_spec (4 + K) (4 + K)); [lia|]. cbn [orb]. f_equal.
  unfold slice. rewrite skipn_app_exact by exact Lh. apply firstn_all2. lia.
Qed.
Theorem C74_read : forall rnd ch data ct detect pref lead ss tail, ss <> [] -> Forall recorded ss -> Forall plain_label ss ->
  input_cells data ct = amiga_track lead ss tail ->
  exists t, any_new rnd ch data None ct detect pref = Ok (TkAmiga t) /\
    forall rnd' q i s, named q ss i s -> as_header_sum s = header_sum s ->
      exists r, am_read_sector rnd' t q None None DataOnly false = Ok r /\ rs_not_found r = false /\ rs_id r = Some (id_of s) /\
        rs_address_crc_error r = false /\ (rs_data_crc_error r = false <-> as_data_sum s = data_sum s) /\ read_data_of r = Ok (as_bytes s).
Proof.
  intros rnd ch data ct dw pref lead ss tail Hn Hr Hl Hi. destruct (load_gen rnd ch data ct dw pref lead ss tail Hn Hr Hi) as (t & E & D & L).
  exists t. split; [exact E|]. intros rnd' q i s Hq Hs. rewrite Forall_forall in Hr, Hl. assert (Is : In s ss) by (destruct Hq as [Hq _]; exact (nth_error_In _ _ Hq)).
  assert (Hb : bad_header s = false). { unfold bad_header. rewrite (short_full s (Hr s Is) (Hl s Is)), Hs, N.eqb_refl. reflexivity. }
  destruct (read_named rnd' t ss q i s L (Hr s Is) Hq Hb) as (r & A1 & A2 & A3 & A4 & A5 & A6 & A7 & _). exists r. repeat (split; [assumption|]). split; [|exact A7].
  rewrite A5. unfold bad_data. rewrite negb_false_iff. apply N.eqb_eq.
Qed.
(* No data is given for a sector whose header checksum is wrong, nor for one that is not there. *)
Theorem C74_no_data : forall rnd ch data ct detect pref lead ss tail, ss <> [] -> Forall recorded ss -> Forall plain_label ss ->
  input_cells data ct = amiga_track lead ss tail ->
  exists t, any_new rnd ch data None ct detect pref = Ok (TkAmiga t) /\ forall rnd' q scope n,
    (forall i s, named q ss i s -> as_header_sum s <> header_sum s ->
       exists r, am_read_sector rnd' t q n None scope false = Ok r /\ rs_not_found r = true /\ rs_address_crc_error r = true /\ rs_id r = Some (id_of s) /\ rs_buf r = []) /\
    ((forall s, In s ss -> query_matches q (id_of s) = false) ->
       exists r, am_read_sector rnd' t q n None scope false = Ok r /\ rs_not_found r = true /\ rs_id r = None /\ rs_buf r = []).
Proof.
  intros rnd ch data ct dw pref lead ss tail Hn Hr Hl Hi. destruct (load_gen rnd ch data ct dw pref lead ss tail Hn Hr Hi) as (t & E & D & L).
  exists t. split; [exact E|]. intros rnd' q scope n. split.
  - intros i s Hq Hs. rewrite Forall_forall in Hr, Hl. assert (Is : In s ss) by (destruct Hq as [Hq _]; exact (nth_error_In _ _ Hq)).
    assert (Hb : bad_header s = true). { unfold bad_header. rewrite (short_full s (Hr s Is) (Hl s Is)). apply negb_true_iff, N.eqb_neq, Hs. }
    destruct (find_named t ss q i s L Hq) as (Ef & _). unfold am_read_sector, off_of. rewrite Ef, Hb. cbn [andb negb]. eexists. split; [reflexivity|]. repeat split.
  - intros Hno. destruct L as (W & ld & Hit & _ & _). unfold am_read_sector, off_of, am_find_sector_element. rewrite Hit.
    destruct (find_none W ld q ss 0 0 false false false Hno) as (a & b & c & Ef). rewrite Ef. eexists. split; [reflexivity|]. repeat split.
Qed.
(* The checksums a read reports agree exactly when the even-numbered bits of the recorded one (those a correct
   checksum has) are right; and the read says nothing of other cylinders or heads. *)
Theorem C74_checksum : forall rnd ch data ct detect pref lead ss tail, ss <> [] -> Forall recorded ss -> Forall plain_label ss ->
  input_cells data ct = amiga_track lead ss tail ->
  exists t, any_new rnd ch data None ct detect pref = Ok (TkAmiga t) /\
    forall rnd' q i s, named q ss i s -> as_header_sum s = header_sum s ->
      exists r crc, am_read_sector rnd' t q None None DataOnly false = Ok r /\ rs_data_crc r = Some crc /\
        (in_recorded crc = in_calculated crc <-> N.land (as_data_sum s) 0x55555555 = data_sum s) /\
        rs_wrong_cylinder r = false /\ rs_bad_cylinder r = false /\ rs_wrong_head r = false.
Proof.
  intros rnd ch data ct dw pref lead ss tail Hn Hr Hl Hi. destruct (load_gen rnd ch data ct dw pref lead ss tail Hn Hr Hi) as (t & E & D & L).
  exists t. split; [exact E|]. intros rnd' q i s Hq Hs. rewrite Forall_forall in Hr, Hl. assert (Is : In s ss) by (destruct Hq as [Hq _]; exact (nth_error_In _ _ Hq)).
  assert (Hb : bad_header s = false). { unfold bad_header. rewrite (short_full s (Hr s Is) (Hl s Is)), Hs, N.eqb_refl. reflexivity. }
  destruct (read_named rnd' t ss q i s L (Hr s Is) Hq Hb) as (r & A1 & _ & _ & _ & _ & _ & _ & (crc & B1 & B2) & B3 & B4 & B5).
  exists r, crc. split; [exact A1|]. split; [exact B1|]. split; [|auto]. rewrite <- B2. unfold integrity_valid. symmetry. apply N.eqb_eq.
Qed.
(* A sector that is not there is reported on a wrong cylinder (head) exactly when the track has a sector of that
   number with another cylinder (head) than the one requested. *)
Lemma find_none_flags W lead q : forall ss i ei wc bc wh, Forall recorded ss -> (forall s', In s' ss -> query_matches q (id_of s') = false) ->
  am_find_loop q 0 (items_from W lead i ss) ei wc bc wh false =
    NotFound (wc || existsb (fun s => (as_sector s =? q_s q)%N && opt_ne (q_c q) (as_track s / 2)%N) ss)%bool bc
             (wh || existsb (fun s => (as_sector s =? q_s q)%N && opt_ne (q_h q) (as_track s mod 2)%N) ss)%bool.
Proof.
  induction ss as [|s0 t IH]; intros i ei wc bc wh Hr Hno; [cbn [existsb]; rewrite !orb_false_r; reflexivity|].
  rewrite items_cons. unfold sector_elems. cbn [app am_find_loop ai_start ai_elem]. rewrite !ltb0. rewrite (Hno s0 (or_introl eq_refl)).
  assert (Hb : (chsn_c (id_of s0) =? 0xFF)%N = false).
  { pose proof (Forall_inv Hr) as (B & _). apply bytes_ok_Forall in B. unfold as_info in B. pose proof (Forall_inv (Forall_inv_tail B)) as B2. cbv beta in B2.
    apply N.eqb_neq. unfold id_of, chsn_c. intros X. change (as_track s0 / 2 = 0xFF)%N in X. pose proof (N.div_mod (as_track s0) 2 ltac:(discriminate)). rewrite X in H. clear - H B2. lia. }
  rewrite Hb. cbn [existsb]. change (chsn_s (id_of s0)) with (as_sector s0). change (chsn_c (id_of s0)) with (as_track s0 / 2)%N. change (chsn_h (id_of s0)) with (as_track s0 mod 2)%N.
  destruct (as_sector s0 =? q_s q)%N; cbn [andb orb]; rewrite IH by (try exact (Forall_inv_tail Hr); intros; apply Hno; right; assumption); [|reflexivity].
  destruct (opt_ne (q_c q) (as_track s0 / 2)%N), (opt_ne (q_h q) (as_track s0 mod 2)%N); cbn [orb]; rewrite ?orb_true_r; reflexivity.
Qed.
Definition same_number (q : DiskChsnQuery) (ss : list asector) (p : DiskChsn -> Prop) : Prop :=
  exists s, In s ss /\ chsn_s (id_of s) = q_s q /\ p (id_of s).
Lemma flags_spec q ss (o : option N) (f : DiskChsn -> N) (g : asector -> N) : (forall s, g s = f (id_of s)) ->
  existsb (fun s => (as_sector s =? q_s q)%N && opt_ne o (g s))%bool ss = true <-> same_number q ss (fun id => exists v, o = Some v /\ f id <> v).
Proof.
  intros Hg. rewrite existsb_exists. split.
  - intros (s & I & H). apply andb_true_iff in H as [H1 H2]. apply N.eqb_eq in H1. exists s. split; [exact I|]. split; [exact H1|]. unfold opt_ne in H2. destruct o as [v|]; [|discriminate H2].
    exists v. split; [reflexivity|]. rewrite <- Hg. apply N.eqb_neq, negb_true_iff, H2.
  - intros (s & I & H1 & v & -> & H2). exists s. split; [exact I|]. apply andb_true_iff. split; [apply N.eqb_eq; exact H1|]. cbn [opt_ne]. apply negb_true_iff, N.eqb_neq. rewrite Hg. exact H2.
Qed.
Theorem C74_elsewhere : forall rnd ch data ct detect pref lead ss tail, ss <> [] -> Forall recorded ss ->
  input_cells data ct = amiga_track lead ss tail ->
  exists t, any_new rnd ch data None ct detect pref = Ok (TkAmiga t) /\
    forall rnd' q n scope debug, (forall s, In s ss -> query_matches q (id_of s) = false) ->
      (exists r, am_read_sector rnd' t q n None scope debug = Ok r /\ rs_not_found r = true /\ rs_bad_cylinder r = false /\
        (rs_wrong_cylinder r = true <-> same_number q ss (fun id => exists v, q_c q = Some v /\ chsn_c id <> v)) /\
        (rs_wrong_head r = true <-> same_number q ss (fun id => exists v, q_h q = Some v /\ chsn_h id <> v))) /\
      sc_not_found (am_scan_sector t q None) = true /\ sc_bad_cylinder (am_scan_sector t q None) = false /\
        (sc_wrong_cylinder (am_scan_sector t q None) = true <-> same_number q ss (fun id => exists v, q_c q = Some v /\ chsn_c id <> v)) /\
        (sc_wrong_head (am_scan_sector t q None) = true <-> same_number q ss (fun id => exists v, q_h q = Some v /\ chsn_h id <> v)).
Proof.
  intros rnd ch data ct dw pref lead ss tail Hn Hr Hi. destruct (load_gen rnd ch data ct dw pref lead ss tail Hn Hr Hi) as (t & E & D & L).
  exists t. split; [exact E|]. intros rnd' q n scope debug Hno. destruct L as (W & ld & Hit & _ & _).
  pose proof (flags_spec q ss (q_c q) chsn_c (fun s => (as_track s / 2)%N) (fun s => eq_refl)) as F1.
  pose proof (flags_spec q ss (q_h q) chsn_h (fun s => (as_track s mod 2)%N) (fun s => eq_refl)) as F2.
  unfold am_read_sector, am_scan_sector, off_of, am_find_sector_element. rewrite Hit, (find_none_flags W ld q ss 0 0 false false false Hr Hno).
  split; [eexists; split; [reflexivity|]; split; [reflexivity|]; split; [reflexivity|]; split; [exact F1|exact F2]|].
  split; [reflexivity|]. split; [reflexivity|]. split; [exact F1|exact F2].
Qed.
(* A scan for a sector that is there tells of its errors; a deleted or missing data mark is never reported. *)
Theorem C74_scan : forall rnd ch data ct detect pref lead ss tail, ss <> [] -> Forall recorded ss -> Forall plain_label ss ->
  input_cells data ct = amiga_track lead ss tail ->
  exists t, any_new rnd ch data None ct detect pref = Ok (TkAmiga t) /\
    forall q i s, named q ss i s -> let r := am_scan_sector t q None in
      sc_not_found r = false /\ sc_no_dam r = false /\ sc_deleted r = false /\
      (sc_address_error r = true <-> as_header_sum s <> header_sum s) /\ (sc_data_error r = true <-> as_data_sum s <> data_sum s).
Proof.
  intros rnd ch data ct dw pref lead ss tail Hn Hr Hl Hi. destruct (load_gen rnd ch data ct dw pref lead ss tail Hn Hr Hi) as (t & E & D & L).
  exists t. split; [exact E|]. intros q i s Hq. destruct (find_named t ss q i s L Hq) as (Ef & _). unfold am_scan_sector, off_of. rewrite Ef.
  rewrite Forall_forall in Hr, Hl. assert (Is : In s ss) by (destruct Hq as [Hq _]; exact (nth_error_In _ _ Hq)).
  cbv zeta. cbn [sc_not_found sc_no_dam sc_deleted sc_address_error sc_data_error]. do 3 (split; [reflexivity|]).
  unfold bad_header, bad_data. rewrite (short_full s (Hr s Is) (Hl s Is)), !negb_true_iff, !N.eqb_neq. split; reflexivity.
Qed.
(* The sector after each one is the next on the track, the first after the last; no sector follows a number that
   is not on the track. *)
Theorem C74_next : forall rnd ch data ct detect pref lead ss tail, ss <> [] -> Forall recorded ss ->
  input_cells data ct = amiga_track lead ss tail ->
  exists t, any_new rnd ch data None ct detect pref = Ok (TkAmiga t) /\
    (forall i s chs, NoDup (map as_sector ss) -> nth_error ss i = Some s -> chs_s chs = as_sector s ->
       am_next_id t chs = option_map id_of (nth_error ss (S i mod length ss))) /\
    (forall chs, (forall s, In s ss -> as_sector s <> chs_s chs) -> am_next_id t chs = None).
Proof.
  intros rnd ch data ct dw pref lead ss tail Hn Hr Hi. destruct (load_gen rnd ch data ct dw pref lead ss tail Hn Hr Hi) as (t & E & D & L).
  exists t. split; [exact E|]. destruct L as (W & ld & _ & Hid & _).
  set (b := mkTrack ch (at_data t) (mkMeta [] (map id_of ss) []) true).
  assert (Eq : forall chs, am_next_id t chs = bt_next_id b chs) by (intros chs; unfold am_next_id, bt_next_id; rewrite Hid; reflexivity).
  split.
  - intros i s chs Nd Hs Hc. rewrite Eq, (Bs_more_proofs.bt_next_id_spec b chs i (id_of s)).
    + change (md_ids (bt_meta b)) with (map id_of ss). rewrite map_length. apply nth_error_map.
    + change (md_ids (bt_meta b)) with (map id_of ss). rewrite map_map. exact Nd.
    + change (md_ids (bt_meta b)) with (map id_of ss). rewrite nth_error_map, Hs. reflexivity.
    + symmetry; exact Hc.
  - intros chs H. rewrite Eq. apply BitStream2_props.C27_bitstream_absent. intros id Hd. change (md_ids (bt_meta b)) with (map id_of ss) in Hd.
    apply in_map_iff in Hd as (s & <- & Is). exact (H s Is).
Qed.
(* What the track analysis says of it. *)
Lemma items_any W lead (f : AmElem -> bool) : forall ss i, existsb f (map ai_elem (items_from W lead i ss)) =
  existsb (fun s => f (AmHeader (id_of s) (bad_header s) false) || f (AmData (id_of s) (bad_header s) (bad_data s)))%bool ss.
Proof.
  induction ss as [|s t IH]; intros i; [reflexivity|]. rewrite items_cons, map_app, existsb_app, IH. cbn [existsb]. f_equal. cbn [sector_elems map ai_elem existsb].
  rewrite orb_false_r. reflexivity.
Qed.
Lemma nonc_fold : forall ids b k, k + length ids < 256 -> (b = true \/ exists j id, nth_error ids j = Some id /\ chsn_s id <> N.of_nat (k + j + 1)) ->
  ofold (fun '(b, si) id => if (as_u8 (N.of_nat si) =? 255)%N then Panic else Ok (b || negb (chsn_s id =? as_u8 (N.of_nat si) + 1)%N, S si)) ids (b, k) = Ok (true, k + length ids).
Proof.
  induction ids as [|id ids IH]; intros b k Hk H; cbn [ofold length].
  - destruct H as [->|(j & id & Hj & _)]; [|destruct j; discriminate Hj]. rewrite Nat.add_0_r. reflexivity.
  - cbn [length] in Hk. assert (Ek : as_u8 (N.of_nat k) = N.of_nat k) by (unfold as_u8; apply N.mod_small; lia). rewrite Ek.
    destruct (N.eqb_spec (N.of_nat k) 255) as [X|X]; [lia|]. cbn [obind]. rewrite (IH _ (S k)); [do 2 f_equal; lia|lia|].
    destruct H as [->|([|j] & id' & Hj & Hne)]; [left; reflexivity| |].
    + injection Hj as <-. left. assert (Y : (chsn_s id =? N.of_nat k + 1)%N = false) by (apply N.eqb_neq; lia). rewrite Y. apply orb_true_r.
    + right. exists j, id'. split; [exact Hj|]. replace (S k + j + 1) with (k + S j + 1) by lia. exact Hne.
Qed.
Lemma nonc_fold_no : forall ids k, k + length ids < 256 -> (forall j id, nth_error ids j = Some id -> chsn_s id = N.of_nat (k + j + 1)) ->
  ofold (fun '(b, si) id => if (as_u8 (N.of_nat si) =? 255)%N then Panic else Ok (b || negb (chsn_s id =? as_u8 (N.of_nat si) + 1)%N, S si)) ids (false, k) = Ok (false, k + length ids).
Proof.
  induction ids as [|id ids IH]; intros k Hk H; cbn [ofold length]; [rewrite Nat.add_0_r; reflexivity|].
  cbn [length] in Hk. assert (Ek : as_u8 (N.of_nat k) = N.of_nat k) by (unfold as_u8; apply N.mod_small; lia). rewrite Ek.
  destruct (N.eqb_spec (N.of_nat k) 255) as [X|X]; [lia|]. cbn [obind]. pose proof (H 0 id eq_refl) as H0. replace (k + 0 + 1) with (k + 1) in H0 by lia.
  assert (Y : (chsn_s id =? N.of_nat k + 1)%N = true) by (apply N.eqb_eq; lia). rewrite Y. cbn [negb orb].
  rewrite (IH (S k)); [do 2 f_equal; lia|lia|]. intros j id' Hj. replace (S k + j + 1) with (k + S j + 1) by lia. exact (H (S j) id' Hj).
Qed.
Lemma nodup_same (l : list N) x : l <> [] -> Forall (fun y => y = x) l -> length (nodup N.eq_dec l) = 1.
Proof.
  intros Hn H. destruct l as [|a l]; [contradiction|]. clear Hn. revert a H. induction l as [|b l IH]; intros a H; [reflexivity|].
  pose proof (Forall_inv H) as Ha. pose proof (Forall_inv (Forall_inv_tail H)) as Hb. cbv beta in *. subst a b.
  assert (X : nodup N.eq_dec (x :: x :: l) = nodup N.eq_dec (x :: l)). { cbn [nodup]. destruct (in_dec N.eq_dec x (x :: l)) as [I|I]; [reflexivity|exfalso; apply I; left; reflexivity]. }
  rewrite X. apply IH, (Forall_inv_tail H).
Qed.
Theorem C74_analysis : forall rnd ch data ct detect pref lead ss tail, ss <> [] -> Forall recorded ss -> Forall plain_label ss -> (N.of_nat (length ss) < 256)%N ->
  input_cells data ct = amiga_track lead ss tail ->
  exists t a, any_new rnd ch data None ct detect pref = Ok (TkAmiga t) /\ am_analysis t = Ok a /\ ta_sector_ct a = length ss /\ ta_consistent_size a = Some 2%N /\
    (ta_address_error a = true <-> exists s, In s ss /\ as_header_sum s <> header_sum s) /\
    (ta_data_error a = true <-> exists s, In s ss /\ as_data_sum s <> data_sum s) /\ ta_deleted a = false /\ ta_no_dam a = false /\
    (ta_nonconsecutive a = false <-> forall j s, nth_error ss j = Some s -> as_sector s = N.of_nat (j + 1)).
Proof.
  intros rnd ch data ct dw pref lead ss tail Hn Hr Hl Hc Hi. destruct (load_gen rnd ch data ct dw pref lead ss tail Hn Hr Hi) as (t & E & D & L).
  destruct L as (W & ld & Hit & Hid & _). exists t.
  set (A := fun b => mkAnalysis (existsb bad_data ss) (existsb bad_header ss) false false (Some 2%N) b false false (length ss)).
  assert (EA : forall b n, ofold (fun '(b, si) id => if (as_u8 (N.of_nat si) =? 255)%N then Panic else Ok (b || negb (chsn_s id =? as_u8 (N.of_nat si) + 1)%N, S si)) (map id_of ss) (false, 0) = Ok (b, n) -> am_analysis t = Ok (A b)).
  { intros b n X. unfold am_analysis, am_analyze_elements, ids_nonconsecutive. rewrite Hid, Hit, X. cbn [obind]. rewrite !items_any, map_map.
    assert (Fn : Forall (fun y => y = 2%N) (map (fun s => chsn_n (id_of s)) ss)) by (apply Forall_forall; intros y Hy; apply in_map_iff in Hy as (s & <- & _); reflexivity).
    assert (Nn : map (fun s => chsn_n (id_of s)) ss <> []) by (destruct ss; [contradiction|discriminate]). rewrite (nodup_same _ 2%N Nn Fn). cbn [Nat.ltb Nat.leb].
    assert (La : last (map (fun s => chsn_n (id_of s)) ss) 0%N = 2%N).
    { clear - Hn. destruct ss as [|s ss]; [contradiction|]. clear Hn. revert s. induction ss as [|s' ss IH]; intros s; [reflexivity|]. exact (IH s'). }
    rewrite La, map_length. unfold A. f_equal.
    assert (X1 : existsb (fun s : asector => false || bad_data s)%bool ss = existsb bad_data ss) by reflexivity.
    assert (X2 : existsb (fun s : asector => bad_header s || bad_header s)%bool ss = existsb bad_header ss) by (clear; induction ss as [|s ss IH]; [reflexivity|]; cbn [existsb]; rewrite IH; destruct (bad_header s); reflexivity).
    assert (X3 : existsb (fun s : asector => false) ss = false) by (clear; induction ss; [reflexivity|exact IHss]).
    cbn [orb]. rewrite X2. rewrite X3. reflexivity. }
  rewrite Forall_forall in Hr, Hl.
  assert (PA : existsb bad_header ss = true <-> exists s, In s ss /\ as_header_sum s <> header_sum s).
  { rewrite existsb_exists. split; intros (s & I & H); exists s; (split; [exact I|]).
    - unfold bad_header in H. rewrite (short_full s (Hr s I) (Hl s I)) in H. apply negb_true_iff, N.eqb_neq in H. exact H.
    - unfold bad_header. rewrite (short_full s (Hr s I) (Hl s I)). apply negb_true_iff, N.eqb_neq, H. }
  assert (PD : existsb bad_data ss = true <-> exists s, In s ss /\ as_data_sum s <> data_sum s).
  { rewrite existsb_exists. split; intros (s & I & H); exists s; (split; [exact I|]); unfold bad_data in *; [apply negb_true_iff, N.eqb_neq in H; exact H|apply negb_true_iff, N.eqb_neq, H]. }
  assert (Lc : 0 + length (map id_of ss) < 256) by (rewrite map_length; lia).
  destruct (forallb (fun p => as_sector (snd p) =? N.of_nat (fst p + 1))%N (combine (seq 0 (length ss)) ss)) eqn:EF.
  - assert (Q : forall j s, nth_error ss j = Some s -> as_sector s = N.of_nat (j + 1)).
    { intros j s Hj. rewrite forallb_forall in EF. apply N.eqb_eq. apply (EF (j, s)). apply (nth_error_In _ j).
      clear - Hj. assert (G : forall k (l : list asector) j, nth_error l j = Some s -> nth_error (combine (seq k (length l)) l) j = Some (k + j, s)).
      { intros k l. revert k. induction l as [|x l IH]; intros k i Hi; [destruct i; discriminate Hi|]. destruct i as [|i]; cbn [length seq combine nth_error].
        - injection Hi as ->. rewrite Nat.add_0_r. reflexivity.
        - rewrite (IH (S k) i Hi). do 2 f_equal. lia. }
      exact (G 0 ss j Hj). }
    exists (A false). split; [exact E|]. split; [apply (EA false (0 + length (map id_of ss))); apply nonc_fold_no; [exact Lc|]|].
    { intros j id Hj. rewrite nth_error_map in Hj. destruct (nth_error ss j) as [s|] eqn:Ej; [|discriminate Hj]. injection Hj as <-. exact (Q j s Ej). }
    split; [reflexivity|]. split; [reflexivity|]. split; [exact PA|]. split; [exact PD|]. split; [reflexivity|]. split; [reflexivity|]. split; [intros _; exact Q|reflexivity].
  - assert (Q : exists j s, nth_error ss j = Some s /\ as_sector s <> N.of_nat (j + 1)).
    { clear - EF. assert (G : forall k (l : list asector), forallb (fun p => as_sector (snd p) =? N.of_nat (fst p + 1))%N (combine (seq k (length l)) l) = false -> exists j s, nth_error l j = Some s /\ as_sector s <> N.of_nat (k + j + 1)).
      { intros k l. revert k. induction l as [|x l IH]; intros k H; [discriminate H|]. cbn [length seq combine forallb fst snd] in H. apply andb_false_iff in H as [H|H].
        - exists 0, x. split; [reflexivity|]. rewrite Nat.add_0_r. apply N.eqb_neq, H.
        - destruct (IH (S k) H) as (j & s & Hj & Hs). exists (S j), s. split; [exact Hj|]. replace (k + S j + 1) with (S k + j + 1) by lia. exact Hs. }
      exact (G 0 ss EF). }
    destruct Q as (j & s & Hj & Hs).
    exists (A true). split; [exact E|]. split; [apply (EA true (0 + length (map id_of ss))); apply nonc_fold; [exact Lc|]|].
    { right. exists j, (id_of s). split; [rewrite nth_error_map, Hj; reflexivity|exact Hs]. }
    split; [reflexivity|]. split; [reflexivity|]. split; [exact PA|]. split; [exact PD|]. split; [reflexivity|]. split; [reflexivity|]. split; [intros X; discriminate X|]. intros X. exfalso. exact (Hs (X j s Hj)).
Qed.

(* ---- examples ---- *)
Definition ex_sector (n : N) (label : list N) (hs ds : N) : asector := mkAs 0xFF 3 n 11 label hs ds (repeat 0xA5%N 512).
Definition with_sums (s : asector) : asector := mkAs (as_format s) (as_track s) (as_sector s) (as_togap s) (as_label s) (header_sum s) (data_sum s) (as_bytes s).
Lemma sp_lt l : length l = 16 -> (sp l < 2 ^ 32)%N.
Proof. intros H. unfold sp. pose proof (bits_val_lt (flat_map (fun b => [false; b]) l)) as B. rewrite (flat_map_const_length _ 2), H in B by reflexivity. exact B. Qed.
Lemma checksum_lt l : (checksum l < 2 ^ 32)%N.
Proof.
  unfold checksum. change (sp (xors (length l / 16) l) < 2 ^ 32)%N. apply sp_lt, xors_length. apply Nat.mul_div_le. lia.
Qed.
Lemma ex_recorded n label hs ds : (n < 256)%N -> length label = 16 -> bytes_ok label = true -> (hs < 2 ^ 32)%N -> (ds < 2 ^ 32)%N -> recorded (ex_sector n label hs ds).
Proof.
  intros Hn Ll Hl Hh Hd. unfold recorded, ex_sector. cbn [as_label as_header_sum as_data_sum as_bytes]. split.
  { unfold as_info. cbn [as_format as_track as_sector as_togap]. apply bytes_ok_Forall. repeat (constructor; [first [exact Hn|reflexivity]|]). constructor. }
  split; [exact Ll|]. split; [exact Hl|]. split; [exact Hh|]. split; [exact Hd|]. split; [apply repeat_length|]. apply bytes_ok_Forall, Forall_forall. intros x Hx. apply repeat_spec in Hx. subst x. reflexivity.
Qed.
Definition good0 := with_sums (ex_sector 0 (repeat 0%N 16) 0 0).
Definition bad1 := ex_sector 1 (repeat 0%N 16) (header_sum (ex_sector 1 (repeat 0%N 16) 0 0)) 0xFFFFFFFF.
(* a track of two sectors, the second with a wrong data checksum *)
Example C74_ex : exists data ct lead tail, input_cells data ct = amiga_track lead [good0; bad1] tail /\ Forall recorded [good0; bad1] /\ Forall plain_label [good0; bad1] /\
  named (mkQuery None None 1 None) [good0; bad1] 1 bad1 /\ as_header_sum bad1 = header_sum bad1 /\ as_data_sum bad1 <> data_sum bad1 /\ as_data_sum good0 = data_sum good0.
Proof.
  exists (to_bytes (amiga_track (repeat false 9) [good0; bad1] [true; false])), (Some (length (amiga_track (repeat false 9) [good0; bad1] [true; false]))), (repeat false 9), [true; false].
  split; [apply cells_input|]. split.
  { assert (L16 : length (repeat 0%N 16) = 16) by reflexivity. constructor; [|constructor; [|constructor]].
    - exact (ex_recorded 0 (repeat 0%N 16) (header_sum (ex_sector 0 (repeat 0%N 16) 0 0)) (data_sum (ex_sector 0 (repeat 0%N 16) 0 0)) eq_refl L16 eq_refl (checksum_lt _) (checksum_lt _)).
    - exact (ex_recorded 1 (repeat 0%N 16) (header_sum (ex_sector 1 (repeat 0%N 16) 0 0)) 0xFFFFFFFF eq_refl L16 eq_refl (checksum_lt _) eq_refl). }
  split; [repeat constructor|]. split.
  { split; [reflexivity|]. split; [reflexivity|]. intros j s' Hj Hs. assert (j = 0) by lia. subst j. injection Hs as <-. reflexivity. }
  split; [reflexivity|]. split; [|reflexivity]. intros X. apply (f_equal (fun v => N.testbit v 31)) in X. cbn [bad1 ex_sector as_data_sum] in X.
  assert (Z : N.testbit (data_sum bad1) 31 = false); [|rewrite Z in X; discriminate X].
  unfold data_sum, checksum. set (x := xors _ _). assert (Lx : length x = 16) by (unfold x; apply xors_length, Nat.mul_div_le; lia). clearbody x. clear X.
  set (y := flat_map (fun b => [false; b]) x). assert (Ly : length y = 32) by (unfold y; rewrite (flat_map_const_length _ 2), Lx by reflexivity; reflexivity).
  change 31%N with (N.of_nat (32 - 1 - 0)). rewrite <- Ly. rewrite Marker_proofs.testbit_bits_val by lia. unfold y. destruct x; [discriminate Lx|reflexivity].
Qed.

(* A sector that is not there, but whose number is: the hypotheses of C74_elsewhere with both flags set. *)
Example C74_elsewhere_ex : (forall s, In s [good0; bad1] -> query_matches (mkQuery (Some 2%N) (Some 0%N) 1 None) (id_of s) = false) /\
  same_number (mkQuery (Some 2%N) (Some 0%N) 1 None) [good0; bad1] (fun id => exists v, q_c (mkQuery (Some 2%N) (Some 0%N) 1 None) = Some v /\ chsn_c id <> v).
Proof.
  split; [intros s [<-|[<-|[]]]; reflexivity|]. exists bad1. split; [right; left; reflexivity|]. split; [reflexivity|]. exists 2%N. split; [reflexivity|discriminate].
Qed.
(* ---- C75: what does not hold of Amiga tracks ---- *)
(* A sector whose recorded checksum has a wrong odd-numbered bit is read with a data error, and yet with two
   checksums that agree. *)
Lemma data_sum_even s : recorded s -> N.land (data_sum s) 0x55555555 = data_sum s /\ N.testbit (data_sum s) 31 = false.
Proof.
  intros (_ & _ & _ & _ & _ & I6 & _). unfold data_sum, checksum.
  set (x := xors _ _). assert (Lx : length x = 16) by (unfold x; apply xors_length, Nat.mul_div_le; lia). clearbody x.
  change (bits_val (flat_map (fun b => [false; b]) x)) with (sp x). split.
  - destruct (four_bytes_sp x Lx) as (p & q & r & t & Hp & Hq & Hr & Hs & E & L & O & V).
    assert (B : (sp x < 2 ^ 32)%N) by (apply sp_lt; exact Lx). rewrite (proj1 (even_val (sp x) B)), L, V. reflexivity.
  - unfold sp. set (y := flat_map (fun b => [false; b]) x). assert (Ly : length y = 32) by (unfold y; rewrite (flat_map_const_length _ 2), Lx by reflexivity; reflexivity).
    change 31%N with (N.of_nat (32 - 1 - 0)). rewrite <- Ly. rewrite Marker_proofs.testbit_bits_val by lia. unfold y. destruct x; [discriminate Lx|reflexivity].
Qed.
Lemma lor_lt a : (a < 2 ^ 32 -> N.lor a 0x80000000 < 2 ^ 32)%N.
Proof.
  intros H. destruct (N.eq_dec (N.lor a 0x80000000) 0) as [Z0|Z0]; [rewrite Z0; reflexivity|]. apply N.log2_lt_pow2; [apply N.neq_0_lt_0, Z0|].
  rewrite N.log2_lor. apply N.max_lub_lt; [|reflexivity]. destruct (N.eq_dec a 0) as [Z|Z]; [rewrite Z; reflexivity|]. apply N.log2_lt_pow2; [apply N.neq_0_lt_0, Z|exact H].
Qed.
Definition clocked : asector := mkAs 0xFF 3 0 11 (repeat 0%N 16) (header_sum good0) (N.lor (data_sum good0) 0x80000000) (repeat 0xA5%N 512).
Theorem C75_crc_refuted : exists s, recorded s /\ plain_label s /\ as_header_sum s = header_sum s /\ as_data_sum s <> data_sum s /\
  forall rnd ch data ct detect pref lead tail, input_cells data ct = amiga_track lead [s] tail ->
    exists t, any_new rnd ch data None ct detect pref = Ok (TkAmiga t) /\
      forall rnd' q, query_matches q (id_of s) = true -> exists r crc, am_read_sector rnd' t q None None DataOnly false = Ok r /\
        rs_data_crc_error r = true /\ rs_data_crc r = Some crc /\ in_recorded crc = in_calculated crc.
Proof.
  exists clocked. assert (L16 : length (repeat 0%N 16) = 16) by reflexivity.
  assert (Rg : recorded good0) by exact (ex_recorded 0 (repeat 0%N 16) (header_sum (ex_sector 0 (repeat 0%N 16) 0 0)) (data_sum (ex_sector 0 (repeat 0%N 16) 0 0)) eq_refl L16 eq_refl (checksum_lt _) (checksum_lt _)).
  destruct (data_sum_even good0 Rg) as (Ge & Gb).
  assert (R : recorded clocked).
  { exact (ex_recorded 0 (repeat 0%N 16) (header_sum good0) (N.lor (data_sum good0) 0x80000000) eq_refl L16 eq_refl (checksum_lt _) (lor_lt _ (checksum_lt _))). }
  assert (Ds : data_sum clocked = data_sum good0).
  { transitivity (checksum (block (repeat 0xA5%N 512))); [unfold data_sum, clocked; cbn [as_bytes]; reflexivity|unfold data_sum, good0, with_sums, ex_sector; cbn [as_bytes]; reflexivity]. }
  assert (As : as_data_sum clocked = N.lor (data_sum good0) 0x80000000) by (unfold clocked; cbn [as_data_sum]; reflexivity).
  assert (Hne : as_data_sum clocked <> data_sum clocked).
  { rewrite As, Ds. intros X. apply (f_equal (fun v => N.testbit v 31)) in X. rewrite N.lor_spec, Gb in X. discriminate X. }
  assert (Hev : N.land (as_data_sum clocked) 0x55555555 = data_sum clocked).
  { rewrite As, Ds, N.land_lor_distr_l, Ge. change (N.land 0x80000000 0x55555555) with 0%N. apply N.lor_0_r. }
  assert (Hh : as_header_sum clocked = header_sum clocked).
  { transitivity (header_sum good0); [unfold clocked; cbn [as_header_sum]; reflexivity|].
    transitivity (checksum (block [0xFF; 3; 0; 11]%N ++ block (repeat 0%N 16))).
    - unfold header_sum, as_info, good0, with_sums, ex_sector. cbn [as_format as_track as_sector as_togap as_label]. reflexivity.
    - unfold header_sum, as_info, clocked. cbn [as_format as_track as_sector as_togap as_label]. reflexivity. }
  split; [exact R|]. split; [reflexivity|]. split; [exact Hh|]. split; [exact Hne|].
  intros rnd ch data ct dw pref lead tail Hi.
  destruct (load_gen rnd ch data ct dw pref lead [clocked] tail ltac:(discriminate) (Forall_cons _ R (Forall_nil _)) Hi) as (t & E & D & L).
  assert (Hb : bad_header clocked = false). { unfold bad_header. rewrite (short_full clocked R eq_refl), Hh, N.eqb_refl. reflexivity. }
  exists t. split; [exact E|]. intros rnd' q Hq. assert (Nq : named q [clocked] 0 clocked) by (split; [reflexivity|]; split; [exact Hq|]; intros; lia).
  destruct (read_named rnd' t _ q 0 clocked L R Nq Hb) as (r & A1 & _ & _ & _ & A5 & _ & _ & (crc & B1 & B2) & _).
  exists r, crc. split; [exact A1|]. split.
  - rewrite A5. unfold bad_data. apply negb_true_iff, N.eqb_neq, Hne.
  - split; [exact B1|]. apply N.eqb_eq. apply B2, Hev.
Qed.
(* The header checksum covers the label, but the code checks ten of the twenty bytes: sectors recorded with correct
   checksums and a label are reported with a bad header, and cannot be read. *)
Definition labelled := with_sums (ex_sector 0 (1 :: repeat 0%N 15) 0 0)%N.
Theorem C75_label_refuted : exists s, recorded s /\ as_header_sum s = header_sum s /\ as_data_sum s = data_sum s /\
  forall rnd ch data ct detect pref lead tail, input_cells data ct = amiga_track lead [s] tail ->
    exists t, any_new rnd ch data None ct detect pref = Ok (TkAmiga t) /\
      am_sector_list (at_items t) = [mkEntry (id_of s) (mkAttr true false false false)] /\
      forall rnd' q, query_matches q (id_of s) = true -> exists r, am_read_sector rnd' t q None None DataOnly false = Ok r /\ rs_not_found r = true /\ rs_buf r = [].
Proof.
  exists labelled. assert (R : recorded labelled).
  { exact (ex_recorded 0 (1 :: repeat 0%N 15)%N _ _ eq_refl eq_refl eq_refl (checksum_lt _) (checksum_lt _)). }
  split; [exact R|]. split; [reflexivity|]. split; [reflexivity|]. intros rnd ch data ct dw pref lead tail Hi.
  destruct (load_gen rnd ch data ct dw pref lead [labelled] tail ltac:(discriminate) (Forall_cons _ R (Forall_nil _)) Hi) as (t & E & D & L).
  assert (Bh : bad_header labelled = true) by (vm_compute; reflexivity).
  assert (Bd : bad_data labelled = false).
  { unfold bad_data. change (as_data_sum labelled) with (data_sum labelled). rewrite N.eqb_refl. reflexivity. }
  exists t. split; [exact E|]. split.
  - rewrite (loaded_list t _ L). cbn [map]. rewrite Bh, Bd. reflexivity.
  - intros rnd' q Hq. assert (Nq : named q [labelled] 0 labelled) by (split; [reflexivity|]; split; [exact Hq|]; intros; lia).
    destruct (find_named t _ q 0 labelled L Nq) as (Ef & _). unfold am_read_sector, off_of. rewrite Ef, Bh. cbn [andb negb]. eexists. split; [reflexivity|]. split; reflexivity.
Qed.
(* A write never changes an Amiga track; to a good sector it reports success, and the old bytes read back. *)
Theorem C75_write_refuted : 
  (forall t q offset d scope del debug t' w, am_write_sector t q offset d scope del debug = Ok (t', w) -> t' = t) /\
  forall rnd ch data ct detect pref lead ss tail, ss <> [] -> Forall recorded ss -> Forall plain_label ss -> input_cells data ct = amiga_track lead ss tail ->
  exists t, any_new rnd ch data None ct detect pref = Ok (TkAmiga t) /\
    forall q i s d scope, named q ss i s -> as_header_sum s = header_sum s -> length d = length (as_bytes s) ->
      exists w, am_write_sector t q None d scope false false = Ok (t, w) /\ wr_not_found w = false /\ wr_no_dam w = false /\ wr_address_crc_error w = false /\
        forall rnd', exists r, am_read_sector rnd' t q None None DataOnly false = Ok r /\ rs_not_found r = false /\ read_data_of r = Ok (as_bytes s).
Proof.
  assert (U : forall l k (x : AmInst), oindex l k = Ok x -> upd l k x = l).
  { unfold oindex. induction l as [|a l IH]; intros k x H; [destruct k; discriminate H|]. destruct k as [|k]; cbn [nth_error] in H; [injection H as ->; reflexivity|]. cbn. f_equal. apply IH, H. }
  split.
  - intros t q offset d scope del debug t' w. unfold am_write_sector. destruct (am_find_sector_element q (at_items t) (off_of offset)) as [k c ae de dl nd b|wc bc wh]; [|intros X; injection X as <- _; reflexivity].
    destruct nd; [intros X; injection X as <- _; reflexivity|]. destruct (ae && negb debug); [intros X; injection X as <- _; reflexivity|].
    destruct (negb (Bool.eqb del dl)); [discriminate|]. destruct (negb (n_size c =? length d)); [discriminate|].
    destruct (oindex (at_items t) k) as [x| |] eqn:Ex; cbn [obind]; [|discriminate|discriminate]. unfold am_encode_element. intros X. injection X as <- _. rewrite (U _ _ _ Ex). destruct t; reflexivity.
  - intros rnd ch data ct dw pref lead ss tail Hn Hr Hl Hi. destruct (load_gen rnd ch data ct dw pref lead ss tail Hn Hr Hi) as (t & E & D & L).
    exists t. split; [exact E|]. intros q i s d scope Hq Hs Ld. rewrite Forall_forall in Hr, Hl. assert (Is : In s ss) by (destruct Hq as [Hq _]; exact (nth_error_In _ _ Hq)).
    assert (Hb : bad_header s = false). { unfold bad_header. rewrite (short_full s (Hr s Is) (Hl s Is)), Hs, N.eqb_refl. reflexivity. }
    destruct (find_named t ss q i s L Hq) as (Ef & p & Ei & Hp). unfold am_write_sector, off_of. rewrite Ef, Hb. cbn [andb Bool.eqb negb].
    assert (LN : n_size (id_of s) = length d). { rewrite Ld. destruct (Hr s Is) as (_ & _ & _ & _ & _ & X & _). rewrite X. reflexivity. }
    rewrite LN, Nat.eqb_refl. cbn [negb]. unfold oindex. rewrite Ei. destruct (nth_error (sector_elems p s) 1) as [x|] eqn:Ex; [|discriminate Ex]. cbn [obind]. unfold am_encode_element.
    eexists. split; [|split; [|split; [|split; [|]]]].
    + rewrite U; [destruct t; reflexivity|]. unfold oindex. rewrite Ei. reflexivity.
    + reflexivity.
    + reflexivity.
    + reflexivity.
    + intros rnd'. destruct (read_named rnd' t ss q i s L (Hr s Is) Hq Hb) as (r & A1 & A2 & A3 & A4 & A5 & A6 & A7 & _). exists r. split; [exact A1|]. split; [exact A2|exact A7].
Qed.
(* A track of Amiga sectors lists them all, but says it has no sector: the sector count is 0, no sector number is
   there, and reading the whole track finds nothing. *)
Theorem C75_count_refuted : forall rnd ch data ct detect pref lead ss tail, ss <> [] -> Forall recorded ss -> input_cells data ct = amiga_track lead ss tail ->
  exists t, any_new rnd ch data None ct detect pref = Ok (TkAmiga t) /\ length (am_sector_list (at_items t)) = length ss /\ am_info_sector_ct t = length ss /\
    am_sector_ct t = 0 /\ (forall id, am_has_sector_id t id = false) /\ exists r, am_read_all t = Ok r /\ rt_not_found r = true.
Proof.
  intros rnd ch data ct dw pref lead ss tail Hn Hr Hi. destruct (load_gen rnd ch data ct dw pref lead ss tail Hn Hr Hi) as (t & E & D & L).
  exists t. split; [exact E|]. rewrite (loaded_list t ss L), map_length. split; [reflexivity|]. destruct L as (W & ld & _ & Hid & _). split; [unfold am_info_sector_ct; rewrite Hid; apply map_length|].
  split; [unfold am_sector_ct; induction (at_items t) as [|x l IH]; [reflexivity|exact IH]|]. split; [intros id; unfold am_has_sector_id; induction (at_items t) as [|x l IH]; [reflexivity|exact IH]|].
  assert (G : forall l k, am_next_sector_loop 0 l k None = NotFound false false false).
  { induction l as [|x l IH]; intros k; [reflexivity|]. cbn [am_next_sector_loop]. rewrite ltb0. apply IH. }
  unfold am_read_all. rewrite G. eexists. split; reflexivity.
Qed.
(* Tracks numbered the way the Amiga does, from 0, are always reported as having nonconsecutive sectors. *)
Theorem C75_numbering_refuted : forall rnd ch data ct detect pref lead ss tail, ss <> [] -> Forall recorded ss -> Forall plain_label ss -> (N.of_nat (length ss) < 256)%N ->
  input_cells data ct = amiga_track lead ss tail -> (forall j s, nth_error ss j = Some s -> as_sector s = N.of_nat j) ->
  exists t a, any_new rnd ch data None ct detect pref = Ok (TkAmiga t) /\ am_analysis t = Ok a /\ ta_nonconsecutive a = true.
Proof.
  intros rnd ch data ct dw pref lead ss tail Hn Hr Hl Hc Hi Hs. destruct (C74_analysis rnd ch data ct dw pref lead ss tail Hn Hr Hl Hc Hi) as (t & a & E & Ea & _ & _ & _ & _ & _ & _ & F).
  exists t, a. split; [exact E|]. split; [exact Ea|]. destruct (ta_nonconsecutive a); [reflexivity|]. exfalso. destruct ss as [|s ss]; [contradiction|].
  pose proof (proj1 F eq_refl 0 s eq_refl) as X. rewrite (Hs 0 s eq_refl) in X. discriminate X.
Qed.
(* Asking for a sector with a smaller size code, as one can for other tracks, panics. *)
Definition join_step (raw : list N) (acc : list N) (k : nat) : outcome (list N) :=
  let! o := oindex raw k in let! e := oindex raw (k + 512) in Ok (acc ++ [N.lor (as_u8 (N.shiftl (N.land o 0x55) 1)) (N.land e 0x55)])%N.
Lemma join_short raw n : n < length raw -> length raw <= n + 512 -> ofold (join_step raw) (seq 0 (S n)) [] = Panic.
Proof.
  intros Hn Hr. rewrite seq_S, TreeMap_proofs.ofold_app. cbn [Nat.add].
  assert (G : forall l acc, ofold (join_step raw) l acc = Panic \/ exists x, ofold (join_step raw) l acc = Ok x).
  { induction l as [|k l IH]; intros acc; [right; eexists; reflexivity|]. cbn [ofold]. unfold join_step at 1 3, oindex. destruct (nth_error raw k); cbn [obind]; [|left; reflexivity].
    destruct (nth_error raw (k + 512)); cbn [obind]; [apply IH|left; reflexivity]. }
  destruct (G (seq 0 n) []) as [->|(x & ->)]; cbn [obind ofold]; [reflexivity|]. unfold join_step, oindex.
  destruct (nth_error raw n) eqn:En; [|reflexivity]. cbn [obind]. rewrite (proj2 (nth_error_None raw (n + 512))) by lia. reflexivity.
Qed.
Theorem C75_size_refuted : forall rnd ch data ct detect pref lead ss tail, ss <> [] -> Forall recorded ss -> Forall plain_label ss -> input_cells data ct = amiga_track lead ss tail ->
  exists t, any_new rnd ch data None ct detect pref = Ok (TkAmiga t) /\
    forall rnd' q i s, named q ss i s -> as_header_sum s = header_sum s ->
      am_read_sector rnd' t q (Some 0%N) None DataOnly false = Panic /\ am_read_sector rnd' t q (Some 1%N) None DataOnly false = Panic.
Proof.
  intros rnd ch data ct dw pref lead ss tail Hn Hr Hl Hi. destruct (load_gen rnd ch data ct dw pref lead ss tail Hn Hr Hi) as (t & E & D & L).
  exists t. split; [exact E|]. intros rnd' q i s Hq Hs. rewrite Forall_forall in Hr, Hl. assert (Is : In s ss) by (destruct Hq as [Hq _]; exact (nth_error_In _ _ Hq)).
  assert (Hb : bad_header s = false). { unfold bad_header. rewrite (short_full s (Hr s Is) (Hl s Is)), Hs, N.eqb_refl. reflexivity. }
  destruct (find_named t ss q i s L Hq) as (Ef & p & Ei & Hp). pose proof (sector_bits_length s (Hr s Is)) as LB. destruct (Hr s Is) as (I1 & I2 & I3 & I4 & I5 & I6 & I7).
  assert (G : forall nv m, N.to_nat (n_to_bytes nv) = S m -> S m <= 500 -> am_read_sector rnd' t q (Some nv) None DataOnly false = Panic).
  { intros nv m Em Hm. unfold am_read_sector, off_of. rewrite Ef, Hb. cbn [andb]. unfold oindex at 1. rewrite Ei. destruct (nth_error (sector_elems p s) 1) as [x|] eqn:Ex; [|discriminate Ex]. cbn [obind].
    rewrite Em. assert (Hx : ai_elem x = AmData (id_of s) (bad_header s) (bad_data s) /\ ai_start x = p + mfm_offset 26) by (injection Ex as <-; split; reflexivity). destruct Hx as [Hx Hst].
    rewrite Hx. replace (am_size (AmData (id_of s) (bad_header s) (bad_data s)) - (snd (am_range (AmData (id_of s) (bad_header s) (bad_data s)) DataOnly) - fst (am_range (AmData (id_of s) (bad_header s) (bad_data s)) DataOnly))) with 4 by reflexivity.
    clear Ex Ef Ei Em. unfold am_decode_element. rewrite Hx, Hst.
    assert (exists h, 512 = 2 * h) as [h Hh] by (exists 256; reflexivity).
    assert (J : forall raw, length raw = (S m + 4) * 2 -> ofold (join_step raw) (seq 0 (S m)) [] = Panic).
    { intros raw Lr. apply join_short; [lia|]. rewrite Lr. clear - Hm. lia. }
    unfold join_step in J. rewrite <- I6 in *. remember (length (as_bytes s)) as K eqn:HK. clear HK I6 Hm.
    replace (p + mfm_offset 26) with (p + 32 + 16 * 24) by (unfold mfm_offset; lia).
    rewrite (decode_sum rnd' (at_data t) (p + 32) (sector_bits s) 24 Hp) by lia. cbn [obind].
    replace (p + 32 + 16 * 24 + mfm_offset 4) with (p + 32 + 16 * 28) by (unfold mfm_offset; lia).
    destruct (raw_nth (at_data t) ((S m + 4) * 2) (p + 32 + 16 * 28) 0 (proj1 (proj1 Hp)) ltac:(lia)) as (raw & Er & Lr). rewrite Er. cbn [obind].
    rewrite (calc_sum rnd' (at_data t) (p + 32) (sector_bits s) 28 h) by (try exact Hp; try lia; unfold mfm_offset; lia). cbn [obind].
    rewrite Nat.div_mul by lia. destruct (Nat.ltb_spec (S m + 4) 4); [lia|].
    replace (Nat.min (S m + 4 - 4) (S m + 4 - 4)) with (S m) by lia. rewrite (J raw Lr). reflexivity. }
  split; [apply (G 0%N 127)|apply (G 1%N 255)]; try reflexivity; clear; lia.
Qed.

Print Assumptions C74_default.
Print Assumptions C74_any.
Print Assumptions C74_load.
Print Assumptions C74_read.
Print Assumptions C74_no_data.
Print Assumptions C74_analysis.
Print Assumptions C75_label_refuted.
Print Assumptions C75_write_refuted.
Print Assumptions C75_count_refuted.
Print Assumptions C75_numbering_refuted.
Print Assumptions C75_size_refuted.

Print Assumptions C74_checksum.
Print Assumptions C74_elsewhere.
Print Assumptions C74_scan.
Print Assumptions C75_crc_refuted.

Print Assumptions C74_next.
