(* Bs_loaded_proofs.v - tracks loaded from arbitrary bit data: what the scan and the clock map guarantee. *)
From Verif Require Import Base Base_lemmas Chs_model BitRing_model BitRing_proofs Mfm_model Mfm_spec Mfm_proofs Marker_proofs Codec_lemmas
  Crc_model Crc16_proofs Types_model System34_model System34_spec Stream_proofs S34_layout_proofs S34_format_proofs S34_scan_proofs S34_clock_proofs
  S34_meta_proofs BitStream_model S34_track_proofs S34_ops_proofs S34_write_proofs TreeMap_proofs MetaSector_proofs MetaSector_spec BitStream_spec
  Bs_general_proofs Bs_history_proofs Bs_write_proofs Bs_api_proofs.
From Coq Require Import Lia.

(* ---- the clock map ---- *)
Definition odd_ok (cm : list bool) (s e : nat) : Prop := forall j, s + 2 * j + 1 < e -> nth (s + 2 * j + 1) cm false = false.
Definition clock_body := (fun '((cm, last) : list bool * nat) '((_, bi) : MarkerItem) =>
             if 0 <? last then
               let! cm := bits_set cm (last - 1) false in
               let! cm := alternate cm last bi in Ok (cm, bi)
             else Ok (cm, bi)).
Lemma div2_le n : 2 * (n / 2) <= n.
Proof. apply Nat.mul_div_le. lia. Qed.
Lemma even_odd_off s j : Nat.even (s + 2 * j + 1 - s) = false.
Proof. replace (s + 2 * j + 1 - s) with (S (2 * j)) by lia. rewrite Nat.even_succ, Nat.odd_mul. reflexivity. Qed.
Lemma half_up n j : 2 * j + 1 < n -> 2 * j + 1 < 2 * ((n + 1) / 2).
Proof.
  intros H. pose proof (Nat.div_mod (n + 1) 2 ltac:(lia)). pose proof (Nat.mod_upper_bound (n + 1) 2 ltac:(lia)). lia.
Qed.
Lemma clock_fold_gen : forall L cm last, 0 < last -> last < length cm -> spaced_from (last + 64) L ->
  (forall x, In x L -> snd x < length cm) ->
  exists cm' last', ofold clock_body L (cm, last) = Ok (cm', last') /\ length cm' = length cm /\ last <= last' < length cm /\
    In last' (last :: map snd L) /\ (forall o, In o (last :: map snd L) -> o <= last') /\
    (forall i, i < last - 1 -> nth i cm' false = nth i cm false) /\
    (nth (last - 1) cm' false = nth (last - 1) cm false \/ nth (last - 1) cm' false = false) /\
    forall s e, In s (last :: map snd L) -> e <= last' -> (forall o, In o (map snd L) -> s < o -> e <= o) -> odd_ok cm' s e.
Proof.
  induction L as [|[k x] L IH]; intros cm last H0 Hl HL Hin.
  { exists cm, last. cbn [ofold map In]. split; [reflexivity|]. split; [reflexivity|]. split; [lia|]. split; [auto|]. split; [intros o [<-|[]]; lia|]. split; [auto|]. split; [auto|]. intros s e [<-|[]] He _ j Hj. lia. }
  cbn [spaced_from] in HL. destruct HL as [Hx HL]. pose proof (Hin (k, x) (or_introl eq_refl)) as Hxl. cbn [snd] in Hxl.
  cbn [ofold]. unfold clock_body at 1. destruct (Nat.ltb_spec 0 last); [|lia].
  rewrite bits_set_ok by lia. cbn [obind].
  pose proof (div2_le (x - last + 1)) as Hd.
  destruct (alternate_spec (upd cm (last - 1) false) last x) as (cm1 & E & El & Hn); [lia|rewrite upd_length; lia|].
  rewrite upd_length in El. rewrite E. cbn [obind].
  destruct (IH cm1 x) as (cm' & last' & E' & El' & Hl' & HI & HM & Hpre & Hpre1 & Hodd); [lia|lia|exact HL| |].
  { intros y Hy. rewrite El. apply Hin. right; auto. }
  exists cm', last'. split; [exact E'|]. split; [lia|]. split; [lia|]. cbn [map snd In] in *. split; [tauto|].
  split; [intros o [<-|Ho]; [lia|auto]|].
  split; [|split].
  - intros i Hi. rewrite Hpre by lia. rewrite Hn. destruct (Nat.leb_spec last i); [lia|]. cbn [andb].
    rewrite nth_upd_b by lia. destruct (Nat.eqb_spec i (last - 1)); [lia|reflexivity].
  - right. rewrite Hpre by lia. rewrite Hn. destruct (Nat.leb_spec last (last - 1)); [lia|]. cbn [andb].
    rewrite nth_upd_b by lia. rewrite Nat.eqb_refl. reflexivity.
  - intros s e Hs He Hlater. destruct Hs as [<-|Hs].
    + intros j Hj. assert (Hex : e <= x) by (apply Hlater; [left; auto|lia]).
      assert (Hc : nth (last + 2 * j + 1) cm1 false = false).
      { rewrite Hn. pose proof (half_up (x - last) j ltac:(lia)) as Hh.
        destruct (Nat.leb_spec last (last + 2 * j + 1)); [|lia]. destruct (Nat.ltb_spec (last + 2 * j + 1) (last + 2 * ((x - last + 1) / 2))); [|lia].
        cbn [andb]. apply even_odd_off. }
      destruct (Nat.eq_dec (last + 2 * j + 1) (x - 1)) as [Eq|Ne].
      * rewrite Eq in *. destruct Hpre1 as [Hq|Hq]; rewrite Hq; auto.
      * rewrite Hpre by lia. exact Hc.
    + apply (Hodd s e Hs He). intros o Ho Hso. apply Hlater; auto.
Qed.
Lemma spaced_positive L : (forall x, In x L -> 0 < snd x) -> spaced_from 0 L -> spaced_from 1 L.
Proof. destruct L as [|[k x] L]; cbn [spaced_from]; auto. intros H [_ H2]. split; auto. apply (H (k, x)). left; auto. Qed.
Lemma clock_map_gen L cm cm' : spaced_from 0 L -> (forall x, In x L -> 0 < snd x < length cm) -> create_clock_map L cm = Ok cm' ->
  forall s e, In s (map snd L) -> e <= length cm -> (forall o, In o (map snd L) -> s < o -> e <= o) -> odd_ok cm' s e.
Proof.
  intros HL Hin. destruct L as [|[k x] L]; [intros _ s e []|].
  cbn [spaced_from] in HL. destruct HL as [_ HL]. pose proof (Hin (k, x) (or_introl eq_refl)) as Hx. cbn [snd] in Hx.
  destruct (clock_fold_gen L cm x) as (cm1 & la & E & El & Hla & HI & HM & _ & _ & Hodd); try lia; auto.
  { intros y Hy. apply Hin. right; auto. }
  assert (E0 : ofold clock_body ((k, x) :: L) (cm, 0) = Ok (cm1, la)) by exact E.
  assert (X : create_clock_map ((k, x) :: L) cm = obind (Ok (cm1, la)) (fun '(cm, last) =>
     let! cm := (if 0 <? last then bits_set cm (last - 1) false else Ok cm) in
     if length cm =? 0 then Panic else alternate cm last (length cm - 1)))
    by exact (f_equal (fun o => obind o (fun '(cm, last) =>
     let! cm := (if 0 <? last then bits_set cm (last - 1) false else Ok cm) in
     if length cm =? 0 then Panic else alternate cm last (length cm - 1))) E0).
  intros EE0. generalize (eq_trans (eq_sym X) EE0). clear EE0 X E0. cbn [obind].
  destruct (Nat.ltb_spec 0 la); [|lia]. rewrite bits_set_ok by lia. cbn [obind].
  rewrite upd_length. destruct (Nat.eqb_spec (length cm1) 0); [lia|].
  pose proof (div2_le (length cm1 - 1 - la + 1)) as Hd.
  destruct (alternate_spec (upd cm1 (la - 1) false) la (length cm1 - 1)) as (cm3 & E3 & El3 & Hn); [lia|rewrite upd_length; lia|].
  rewrite E3. intros EE. assert (cm' = cm3) by congruence. subst cm'. clear EE E3 E.
  intros s e Hs He Hlater j Hj. rewrite Hn.
  destruct (Nat.leb_spec la (s + 2 * j + 1)) as [H1|H1]; cbn [andb].
  - assert (Hsl : s = la).
    { cbn [map snd In] in HI, Hs, Hlater, HM. destruct (Nat.lt_trichotomy s la) as [H2|[H2|H2]]; auto.
      - assert (e <= la) by (apply Hlater; auto). lia.
      - specialize (HM s Hs). lia. }
    subst s. clear - Hj He El Hla. 
    assert (Hb : la + 2 * j + 1 < la + 2 * ((length cm1 - 1 - la + 1) / 2)).
    { pose proof (Nat.div_mod (length cm1 - 1 - la + 1) 2 ltac:(lia)). pose proof (Nat.mod_upper_bound (length cm1 - 1 - la + 1) 2 ltac:(lia)). lia. }
    destruct (Nat.ltb_spec (la + 2 * j + 1) (la + 2 * ((length cm1 - 1 - la + 1) / 2))); [|lia]. apply even_odd_off.
  - rewrite nth_upd_b by lia. destruct (Nat.eqb_spec (s + 2 * j + 1) (la - 1)); [reflexivity|].
    apply (Hodd s (Nat.min e la)); auto; try lia. intros o Ho Hso. specialize (Hlater o (or_intror Ho) Hso). lia.
Qed.

(* ---- the marks ---- *)
Definition address_mark (k : S34Marker) : list N :=
  match k with Idam => IDAM_MARKER_BYTES | Dam => DAM_MARKER_BYTES | Ddam => DDAM_MARKER_BYTES | Iam => [0xC2; 0xC2; 0xC2; 0xFC]%N end.
Lemma win64_split V : (V < 2 ^ 64)%N -> N.land V MARKER_MASK = ANY_MARKER -> V = (ANY_MARKER + V mod 2 ^ 16)%N.
Proof.
  intros HV H. pose proof (N.div_mod V (2 ^ 16) ltac:(discriminate)) as E.
  assert (H2 : (V / 2 ^ 16 = 0x448944894489)%N).
  { rewrite <- N.shiftr_div_pow2. transitivity (N.shiftr (N.land V MARKER_MASK) 16); [|rewrite H; reflexivity].
    rewrite N.shiftr_land. change (N.shiftr MARKER_MASK 16) with (N.ones 48). rewrite N.land_ones. symmetry. apply N.mod_small.
    rewrite N.shiftr_div_pow2. apply N.div_lt_upper_bound; [discriminate|]. rewrite <- N.pow_add_r. exact HV. }
  rewrite H2 in E. exact E.
Qed.
Lemma marker_value v k : marker_of_u16 v = Some k -> In v
  match k with Idam => [0x5554; 0xF57E] | Dam => [0x5545; 0xF56F] | Ddam => [0x554A] | Iam => [] end%N.
Proof.
  unfold marker_of_u16. intros H.
  destruct (N.eqb_spec v 0x5554) as [->|]; [injection H as <-; cbn; auto|].
  destruct (N.eqb_spec v 0xF57E) as [->|]; [injection H as <-; cbn; auto|]. cbn [orb] in H.
  destruct (N.eqb_spec v 0x5545) as [->|]; [injection H as <-; cbn; auto|].
  destruct (N.eqb_spec v 0xF56F) as [->|]; [injection H as <-; cbn; auto|]. cbn [orb] in H.
  destruct (N.eqb_spec v 0x554A) as [->|]; [injection H as <-; cbn; auto|]. discriminate.
Qed.
Lemma mark_decodes l p k : occurs l MARKER_MASK ANY_MARKER p -> marker_of_u16 (win64 l p mod 2 ^ 16) = Some k ->
  bytes_of 4 (data_window l p (8 * 4)) = address_mark k.
Proof.
  intros [Hp Ho] Hk.
  assert (HV : (win64 l p < 2 ^ 64)%N).
  { unfold win64. pose proof (bits_val_lt (slice l p 64)) as B. rewrite slice_length in B by exact Hp. exact B. }
  pose proof (win64_split _ HV Ho) as E. apply marker_value in Hk.
  assert (Hw : data_window l p (8 * 4) = map (fun k => N.testbit (win64 l p) (N.of_nat (63 - (1 + 2 * k)))) (seq 0 32)).
  { unfold data_window. apply map_ext_in. intros j Hj. apply in_seq in Hj. unfold circ. rewrite Nat.mod_small by lia.
    unfold win64. pose proof (testbit_bits_val (slice l p 64) (1 + 2 * j)) as T. rewrite slice_length in T by exact Hp.
    replace (64 - 1 - (1 + 2 * j)) with (63 - (1 + 2 * j)) in T by lia. rewrite T by lia.
    rewrite nth_slice by lia. f_equal. lia. }
  rewrite Hw. clear Hw. set (V := win64 l p) in *. clearbody V. set (v := (V mod 2 ^ 16)%N) in *. clearbody v. subst V. clear - Hk.
  destruct k; cbn [In] in Hk; [destruct Hk|..]; repeat (destruct Hk as [<-|Hk]; [vm_compute; reflexivity|]); destruct Hk.
Qed.
Definition real_mark (l : list bool) (x : MarkerItem) : Prop :=
  0 < snd x /\ snd x + 64 <= length l /\ (fst x <> Iam -> bytes_of 4 (data_window l (snd x) (8 * 4)) = address_mark (fst x)).
Lemma scan_loop_real m : plain (m_bits m) -> forall fuel c acc L, scan_loop fuel m c acc = Ok L ->
  Forall (real_mark (mfm_data m)) acc -> Forall (real_mark (mfm_data m)) L.
Proof.
  intros Hp. induction fuel as [|f IH]; intros c acc L; cbn [scan_loop]; [discriminate|].
  unfold find_next_marker. destruct (find_marker m _ c None) as [[[idx v]|]| |] eqn:Ef; cbn [obind]; try discriminate.
  2: { intros E; injection E as <-. auto. }
  destruct (marker_of_u16 v) as [k|] eqn:Ek; cbn [option_map]; [|intros E; injection E as <-; auto].
  apply find_marker_some in Ef; auto. cbn [me_mask me_bits] in Ef. destruct Ef as ((H1 & _ & H2 & _) & H3 & ->).
  intros E A. eapply IH; [exact E|]. apply Forall_app. split; [exact A|]. constructor; [|constructor].
  split; [exact H3|]. split; [apply H2|]. intros _. cbn [fst snd]. apply mark_decodes; auto.
Qed.
Lemma scan_markers_real m L : plain (m_bits m) -> scan_markers m = Ok L -> Forall (real_mark (mfm_data m)) L.
Proof.
  intros Hp. unfold scan_markers, s34_find_marker.
  destruct (find_marker m _ 0 (Some 5000)) as [[[p v]|]| |] eqn:Ef; cbn [obind]; try discriminate.
  - apply find_marker_some in Ef; auto. destruct Ef as ((H1 & _ & (H2 & _) & _) & H3 & _). intros E. eapply scan_loop_real; [exact Hp|exact E|].
    constructor; [|constructor]. split; [exact H3|]. split; [exact H2|]. cbn [fst]. congruence.
  - intros E. eapply scan_loop_real; [exact Hp|exact E|constructor].
Qed.

(* ---- elements and markers ---- *)
Lemma in_insert_by {A} (key : A -> N) y x : forall l, In x (insert_by key y l) <-> x = y \/ In x l.
Proof.
  induction l as [|z l IH]; cbn [insert_by In]; [intuition congruence|].
  match goal with |- context [if ?b then _ else _] => destruct b end; cbn [In]; rewrite ?IH; intuition congruence.
Qed.
Lemma in_sort_by {A} (key : A -> N) x l : In x (stable_sort_by key l) <-> In x l.
Proof.
  unfold stable_sort_by. enough (G : forall l acc, In x (fold_left (fun acc x => insert_by key x acc) l acc) <-> In x l \/ In x acc)
    by (rewrite G; cbn [In]; tauto).
  clear l. induction l as [|y l IH]; intros acc; cbn [fold_left In]; [tauto|]. rewrite IH, in_insert_by. intuition congruence.
Qed.
Definition from_marks (P : MarkerItem -> Prop) (i : Inst) : Prop :=
  match i_elem i with
  | ElMarker k => P (k, i_start i)
  | ElData c ae de del => P ((if del then Ddam else Dam), i_start i) /\ i_end i = i_start i + 64 + 16 * n_size c
  | ElHeader _ _ _ => True
  end.
Lemma from_marks_last P l : Forall (from_marks P) l -> Forall (from_marks P) (map_last set_last l).
Proof.
  intros H. destruct l as [|x l] using rev_ind; [constructor|]. rewrite map_last_snoc. apply Forall_app in H as [H1 H2].
  apply Forall_app. split; auto. inversion H2; subst. constructor; auto.
Qed.
Lemma scan_items_marks rnd m L items m' : scan_metadata rnd m L = Ok (items, m') ->
  Forall (from_marks (fun x => In x L)) items /\ forall x, In x L -> exists j, In j items /\ i_elem j = ElMarker (fst x) /\ i_start j = snd x.
Proof.
  unfold scan_metadata. destruct (ofold _ _ _) as [st| |] eqn:E; cbn [obind]; try discriminate.
  intros E'. 
  assert (G : Forall (from_marks (fun x => In x L)) (ss_elems st) /\ forall x, In x L -> exists j, In j (ss_elems st) /\ i_elem j = ElMarker (fst x) /\ i_start j = snd x).
  { clear E'. assert (G : forall l st0, ofold (scan_step rnd) l st0 = Ok st -> (forall x, In x l -> In x L) ->
       Forall (from_marks (fun x => In x L)) (ss_elems st0) ->
       Forall (from_marks (fun x => In x L)) (ss_elems st) /\ (forall j, In j (ss_elems st0) -> In j (ss_elems st)) /\
       forall x, In x l -> exists j, In j (ss_elems st) /\ i_elem j = ElMarker (fst x) /\ i_start j = snd x).
    { clear E. induction l as [|[mk off] l IH]; intros st0; cbn [ofold].
      - intros E; injection E as <-. intros _ H. split; [auto|]. split; [auto|]. intros x [].
      - destruct (scan_step rnd st0 (mk, off)) as [st1| |] eqn:E1; cbn [obind]; try discriminate. intros E Hin H.
        apply scan_step_inv in E1 as (new & Ee & P & _).
        assert (Hnew : Forall (from_marks (fun x => In x L)) new /\ exists j, In j new /\ i_elem j = ElMarker mk /\ i_start j = off).
        { assert (HI : In (mk, off) L) by (apply Hin; left; auto).
          destruct P as [_|_ ->|de _ Hmk _]; (split; [repeat constructor; cbn; auto|eexists; split; [cbn [In]; eauto|split; reflexivity]]).
          destruct Hmk as [-> | ->]; auto. }
        destruct (IH st1 E) as (A & B & C).
        + intros x Hx. apply Hin. right; auto.
        + rewrite Ee. apply Forall_app. split; [auto|apply Hnew].
        + split; [exact A|]. split; [intros j Hj; apply B; rewrite Ee; apply in_or_app; auto|].
          intros x [<-|Hx]; [|apply C; auto]. destruct Hnew as (_ & j & Hj & Hj2). exists j. split; [apply B; rewrite Ee; apply in_or_app; auto|]. exact Hj2. }
    destruct (G L _ E) as (A & _ & B); auto. constructor. }
  set (elems := match ss_last st with Some Idam => _ | _ => _ end) in E'.
  assert (G2 : Forall (from_marks (fun x => In x L)) elems /\ forall j, In j (ss_elems st) -> In j elems).
  { unfold elems. destruct G as [G _]. destruct (ss_last st) as [[]|]; auto. split; [apply Forall_app; split; [auto|repeat constructor]|intros; apply in_or_app; auto]. }
  assert (Ei : items = map_last set_last (stable_sort_by (fun i => N.of_nat (i_start i)) elems)) by congruence. clear E'. subst items.
  assert (Hperm : forall j, In j (stable_sort_by (fun i => N.of_nat (i_start i)) elems) <-> In j elems).
  { intros j. apply in_sort_by. }
  split.
  - apply from_marks_last. apply Forall_forall. intros j Hj. apply Hperm in Hj. destruct G2 as [G2 _]. rewrite Forall_forall in G2. auto.
  - intros x Hx. destruct G as [_ G]. destruct (G x Hx) as (j & Hj & Hj2 & Hj3). apply G2 in Hj. apply Hperm in Hj.
    destruct (stable_sort_by _ elems) as [|y l] eqn:El using rev_ind; [destruct Hj|]. rewrite map_last_snoc.
    apply in_app_or in Hj as [Hj|[<-|[]]]; [exists j; split; [apply in_or_app; auto|auto]|].
    exists (set_last y). split; [apply in_or_app; right; left; auto|auto].
Qed.

(* ---- a loaded track ---- *)
Lemma formattable_wf t : formattable t -> mfm_wf (bt_data t).
Proof.
  intros [A B C [D1 D2 D3]]. split; [exact A|]. split; [|split; [exact D1|right; exact B]].
  destruct (r_bits (m_clock (bt_data t))) as [|x l] eqn:E; cbn [length]; [|lia]. exfalso.
  rewrite ?E in D3. cbn [length] in D3. destruct A as (_ & _ & A). change (length (r_bits (m_bits (bt_data t)))) with (mfm_len (bt_data t)) in A.
  change ((0 + 15) / 16) with 0 in D3. symmetry in D3. apply Nat.div_small_iff in D3; lia.
Qed.
Lemma empty_scan m : mfm_len m = 0 -> scan_markers m = Ok [].
Proof.
  intros H. assert (E : ring_is_empty (m_bits m) = true) by (unfold ring_is_empty; change (length (r_bits (m_bits m)) = 0) in H; destruct (r_bits (m_bits m)); [reflexivity|discriminate H]).
  unfold scan_markers, s34_find_marker, find_marker. rewrite E. cbn [obind scan_loop]. unfold find_next_marker, find_marker. rewrite E. reflexivity.
Qed.
Lemma clock_len bits ct m : mfm_new bits ct None = Ok m -> length (r_bits (m_clock m)) = mfm_len m.
Proof.
  unfold mfm_new. destruct (_ <? _); [discriminate|]. intros E. match type of E with Ok ?x = _ => assert (Em : m = x) by congruence end. rewrite Em. 
  unfold mfm_len, ring_len. cbn [m_bits m_clock ring_set_wrap_value ring_from r_bits]. apply repeat_length.
Qed.
(* no mark begins inside the element (other than its own) *)
Definition undisturbed (t : BitTrack) (i : Inst) (n : nat) : Prop :=
  forall j k, In j (md_items (bt_meta t)) -> i_elem j = ElMarker k -> i_start i < i_start j -> i_start i + 16 * n <= i_start j.
Lemma loaded_element rnd0 ch data ct t i c ae de del : bt_new rnd0 ch data None ct false = Ok t ->
  In i (md_items (bt_meta t)) -> i_elem i = ElData c ae de del ->
  mfm_wf (bt_data t) /\ i_start i + 64 <= mfm_len (bt_data t) /\
  bytes_of 4 (data_window (mfm_data (bt_data t)) (i_start i) (8 * 4)) = address_mark (if del then Ddam else Dam) /\
  (forall p, weak_at (bt_data t) p = false) /\
  forall n, undisturbed t i n -> in_phase (bt_data t) (i_start i) n 0.
Proof.
  intros Ht Hi Ei. destruct (new_cells _ _ _ _ _ Ht) as (m & bits & Em & _ & _ & E1 & E2 & E3 & _ & D).
  destruct D as [(_ & _ & Hmd & _)|(L & cm & items & m' & Hsc & _ & Ecm & Es & Emd & _ & Ebt)].
  { rewrite Hmd in Hi. destruct Hi. }
  assert (Hlen : mfm_len (bt_data t) = mfm_len m) by (unfold mfm_len; rewrite E1; reflexivity).
  assert (Hdat : mfm_data (bt_data t) = mfm_data m) by (unfold mfm_data; rewrite E1; reflexivity).
  assert (Hne : mfm_len m <> 0).
  { intros H0. rewrite (empty_scan m H0) in Hsc. assert (L = []) by congruence. subst L.
    rewrite Emd in Hi. cbn [meta_new md_items] in Hi. apply scan_items_marks in Es as [Es _]. rewrite Forall_forall in Es. specialize (Es i Hi).
    unfold from_marks in Es. rewrite Ei in Es. destruct Es as [[] _]. }
  assert (Hf : formattable t) by (eapply new_formattable; [exact Ht|rewrite Hlen; exact Hne]).
  split; [apply formattable_wf; exact Hf|].
  destruct (mfm_new_fmt _ _ _ Em Hne) as (P1 & P2 & P3 & P4).
  pose proof (scan_markers_real m L P1 Hsc) as Hreal. destruct (scan_markers_inv m L P1 Hsc) as [Hsp _].
  rewrite Emd in Hi. cbn [meta_new md_items] in Hi. destruct (scan_items_marks _ _ _ _ _ Es) as [Hfrom Hto].
  rewrite Forall_forall in Hfrom. specialize (Hfrom i Hi). unfold from_marks in Hfrom. rewrite Ei in Hfrom. destruct Hfrom as [Hin _].
  rewrite Forall_forall in Hreal. destruct (Hreal _ Hin) as (Hpos & Hend & Hdec). cbn [fst snd] in Hpos, Hend, Hdec.
  change (length (mfm_data m)) with (mfm_len m) in Hend.
  split; [rewrite Hlen; exact Hend|]. split; [rewrite Hdat; apply Hdec; destruct del; discriminate|].
  split; [apply noweak_at; destruct Hf; auto|].
  intros n Hund. assert (Hck : r_bits (m_clock (bt_data t)) = cm /\ r_wrapv (m_clock (bt_data t)) = Some false).
  { destruct Hf as [_ _ _ [_ F2 _]]. split; [|exact F2]. apply scan_metadata_moved in Es as [cc ->]. rewrite Ebt. destruct (data_ranges _); reflexivity. }
  destruct Hck as [Hck Hwv]. left. split; [reflexivity|]. intros k Hk. right. unfold clk. rewrite Hwv, Hck.
  destruct (Nat.ltb_spec (i_start i + 16 * k + 1) (length cm)) as [Hlt|]; [|reflexivity].
  pose proof (clock_map_length _ _ _ Ecm) as Hcl.
  assert (Hb : forall x, In x L -> 0 < snd x < length (r_bits (m_clock m))).
  { intros x Hx. destruct (Hreal x Hx) as (R1 & R2 & _). split; [exact R1|]. rewrite (clock_len _ _ _ Em). change (length (mfm_data m)) with (mfm_len m) in R2. lia. }
  pose proof (clock_map_gen L _ _ Hsp Hb Ecm (i_start i) (Nat.min (i_start i + 16 * n) (length cm))) as Hodd.
  replace (i_start i + 16 * k + 1) with (i_start i + 2 * (8 * k) + 1) by lia. apply Hodd.
  - change (i_start i) with (snd ((if del then Ddam else Dam), i_start i)). apply in_map. exact Hin.
  - lia.
  - intros o Ho Hio. apply in_map_iff in Ho as (x & <- & Hx). destruct (Hto x Hx) as (j & Hj & Hje & Hjs).
    specialize (Hund j (fst x)). rewrite Emd in Hund. cbn [meta_new md_items] in Hund. specialize (Hund Hj Hje). lia.
  - lia.
Qed.
Theorem loaded_write_read rnd0 ch data ct t q offset d scope wd t' r :
  bt_new rnd0 ch data None ct false = Ok t -> bytes_ok d = true ->
  bt_write_sector t q offset d scope wd false = Ok (t', r) ->
  wr_not_found r = false -> wr_no_dam r = false -> wr_address_crc_error r = false ->
  exists k i c de, nth_error (md_items (bt_meta t)) k = Some i /\ i_elem i = ElData c false de wd /\ length d = n_size c /\
    find_sector_element q (md_items (bt_meta t)) (off_of offset) = Found k c false de wd false (i_last i) /\
    (undisturbed t i (length d + 6) -> 16 * (length d + 6) <= mfm_len (bt_data t) ->
     forall rnd, bt_read_sector rnd t' q None offset DataOnly false =
       Ok (written_read c wd (i_last i) (if wd then DDAM_MARKER_BYTES else DAM_MARKER_BYTES) d)).
Proof.
  intros Ht Hb Hw N1 N2 N3.
  assert (W : mfm_wf (bt_data t)).
  { apply formattable_wf. eapply new_formattable; [exact Ht|]. intros H0.
    unfold bt_write_sector, scan_sector_element in Hw. destruct (bt_schema t) eqn:Es; cbn [negb obind] in Hw; [|discriminate].
    destruct (find_sector_element q _ _) as [k c ae de del dm b|] eqn:EF; cbn [obind] in Hw; [|assert (r = mkWrite true false false wrong_cylinder bad_cylinder wrong_head) by congruence; subst r; discriminate].
    apply find_points_at in EF as (i & _ & Hn & _). apply nth_error_In in Hn.
    destruct (new_cells _ _ _ _ _ Ht) as (m & bits & Em & _ & _ & E1 & _ & _ & _ & D).
    assert (H0' : mfm_len m = 0) by (unfold mfm_len in *; rewrite <- E1; exact H0).
    destruct D as [(_ & _ & Hmd & _)|(L & cm & items & m' & Hsc & HL & _)].
    - rewrite Hmd in Hn. destruct Hn.
    - rewrite (empty_scan m H0') in Hsc. congruence. }
  assert (X : forall rnd, exists k i c de, nth_error (md_items (bt_meta t)) k = Some i /\ i_elem i = ElData c false de wd /\ length d = n_size c /\
    find_sector_element q (md_items (bt_meta t)) (off_of offset) = Found k c false de wd false (i_last i) /\
    (undisturbed t i (length d + 6) -> 16 * (length d + 6) <= mfm_len (bt_data t) ->
     bt_read_sector rnd t' q None offset DataOnly false =
       Ok (written_read c wd (i_last i) (if wd then DDAM_MARKER_BYTES else DAM_MARKER_BYTES) d))).
  { intros rnd. destruct (write_read_any rnd t q offset d scope wd t' r W Hb Hw N1 N2 N3) as (k & i & c & de & H1 & H2 & H3 & H4 & H5).
    exists k, i, c, de. repeat (split; [assumption|]). intros U Hl.
    destruct (loaded_element _ _ _ _ _ _ _ _ _ _ Ht (nth_error_In _ _ H1) H2) as (_ & Hs & Hm & Hwk & Hph).
    apply (H5 0); auto.
    - intros p Hp. apply Hwk.
    - rewrite (read_decoded_buf_spec rnd _ (i_start i) 4 0 W).
      + rewrite Nat.add_0_r, Hm. destruct wd; reflexivity.
      + eapply in_phase_le; [|apply (Hph _ U)]. lia.
      + intros p Hp. apply Hwk. }
  destruct (X (fun _ => false)) as (k & i & c & de & H1 & H2 & H3 & H4 & _). exists k, i, c, de. repeat (split; [assumption|]).
  intros U Hl rnd. destruct (X rnd) as (k' & i' & c' & de' & H1' & H2' & H3' & H4' & H5').
  assert (k' = k /\ c' = c) as [-> ->] by (split; congruence). assert (i' = i) by congruence. subst i'. auto.
Qed.
