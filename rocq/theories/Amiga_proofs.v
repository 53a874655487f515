(* Amiga_proofs.v - where the sync marks of an Amiga track are, and that the scanners find exactly these. *)
From Verif Require Import Base Base_lemmas Chs_model BitRing_model BitRing_proofs Mfm_model Mfm_spec Mfm_proofs Marker_proofs Codec_lemmas
  Crc_model Types_model System34_model BitStream_model OddEven_model Amiga_model Amiga_spec Bs_general_proofs.
From Coq Require Import Lia.

(* ---- the marker search with a 32 cell marker ---- *)
Lemma am_loop_spec r mk start lim fuel ct :
  plain r -> me_len mk = 32 -> start + ct + fuel = lim -> lim <= length (r_bits r) ->
  no_occ (r_bits r) (me_mask mk) (me_bits mk) start (start + ct) ->
  (exists p, first_occ (r_bits r) (me_mask mk) (me_bits mk) start lim p /\
     find_marker_loop r mk fuel (start + ct) (bits_val (slice (r_bits r) start ct) mod 2 ^ 64) ct = Ok (Some (p + 32, N.land (win64 (r_bits r) p) 0xFFFF))) \/
  (no_occ (r_bits r) (me_mask mk) (me_bits mk) start lim /\
   find_marker_loop r mk fuel (start + ct) (bits_val (slice (r_bits r) start ct) mod 2 ^ 64) ct = Ok None).
Proof.
  intros Hp Hm. revert ct; induction fuel as [|f IH]; intros ct Hlim Hle Hno; cbn [find_marker_loop].
  - right. split; auto. replace lim with (start + ct) by lia. auto.
  - rewrite ring_get_plain by auto. cbn [obind].
    assert (Ec : circ (r_bits r) (start + ct) = nth (start + ct) (r_bits r) false).
    { unfold circ. rewrite Nat.mod_small by lia. reflexivity. }
    rewrite Ec. rewrite reg_step by lia.
    destruct ((64 <=? S ct) && (N.land (bits_val (slice (r_bits r) start (S ct)) mod 2 ^ 64) (me_mask mk) =? me_bits mk)%N) eqn:E.
    + apply andb_prop in E as [E1 E2]. apply Nat.leb_le in E1. apply N.eqb_eq in E2.
      rewrite reg_window in * by lia. left. exists (start + S ct - 64). split.
      * split; [lia|]. split; [lia|]. split; [split; [lia|exact E2]|].
        intros q Hq. apply Hno; lia.
      * rewrite Hm. destruct (Nat.ltb_spec (start + ct) 32); [lia|].
        do 3 f_equal. lia.
    + replace (S (start + ct)) with (start + S ct) by lia. apply IH; try lia.
      intros q Hq1 Hq2 [Hq3 Hq4].
      destruct (Nat.ltb_spec (q + 64) (start + S ct)) as [Hlt|Hge].
      * apply (Hno q); [lia|lia|split; auto].
      * assert (q = start + S ct - 64) by lia. subst q.
        rewrite reg_window in E by lia. rewrite Hq4, N.eqb_refl, andb_true_r in E.
        apply Nat.leb_gt in E. lia.
Qed.
Lemma am_next_spec m start : plain (m_bits m) ->
  (exists p, first_occ (mfm_data m) AMIGA_DAM_MASK AMIGA_DAM_MARKER start (mfm_len m) p /\ am_find_next_marker m start = Ok (Some (p + 32))) \/
  (no_occ (mfm_data m) AMIGA_DAM_MASK AMIGA_DAM_MARKER start (mfm_len m) /\ am_find_next_marker m start = Ok None).
Proof.
  intros Hp. unfold am_find_next_marker, find_marker.
  assert (Ee : ring_is_empty (m_bits m) = false).
  { destruct Hp as (_ & _ & H). unfold ring_is_empty. destruct (r_bits (m_bits m)); [cbn in H; lia|reflexivity]. }
  rewrite Ee. set (mk := mkMarker AMIGA_DAM_MARKER AMIGA_DAM_MASK 32). set (lim := mfm_len m).
  destruct (Nat.leb_spec start lim) as [Hs|Hs].
  - pose proof (am_loop_spec (m_bits m) mk start lim (lim - start) 0 Hp eq_refl) as G.
    rewrite Nat.add_0_r in G. change (slice (r_bits (m_bits m)) start 0) with (@nil bool) in G.
    destruct G as [(p & F & E)|[F E]]; try lia.
    + unfold lim, mfm_len, ring_len. lia.
    + intros q H1 H2. lia.
    + left. exists p. split; [exact F|]. change (bits_val [] mod 2 ^ 64)%N with 0%N in E. rewrite E. reflexivity.
    + right. split; [exact F|]. change (bits_val [] mod 2 ^ 64)%N with 0%N in E. rewrite E. reflexivity.
  - replace (lim - start) with 0 by lia. cbn [find_marker_loop obind option_map]. right. split; [|reflexivity].
    intros q H1 H2. lia.
Qed.

(* ---- cells with flagged missing clocks ---- *)
Fixpoint mfmx (prev : bool) (ds : list (bool * bool)) : list bool :=
  match ds with [] => [] | (d, x) :: t => (negb x && (negb prev && negb d)) :: d :: mfmx d t end.
Definition nf (d : bool) : bool * bool := (d, false).
Lemma mfmx_plain prev ds : mfmx prev (map nf ds) = mfm prev ds.
Proof. revert prev; induction ds as [|d t IH]; intros prev; cbn [map mfmx mfm nf]; [reflexivity|]. rewrite IH. reflexivity. Qed.
Lemma last_cons_d {A} (x : A) l d : last (x :: l) d = last l x.
Proof. revert x d; induction l as [|y l IH]; intros x d; [reflexivity|]. change (last (y :: l) d = last (y :: l) x). rewrite !IH. reflexivity. Qed.
Lemma mfmx_app a b : forall prev, mfmx prev (a ++ b) = mfmx prev a ++ mfmx (last (map fst a) prev) b.
Proof.
  induction a as [|[d x] a IH]; intros prev; [reflexivity|].
  cbn [app mfmx map fst]. rewrite last_cons_d, IH. reflexivity.
Qed.
Lemma mfmx_length ds : forall prev, length (mfmx prev ds) = 2 * length ds.
Proof. induction ds as [|[d x] t IH]; intros prev; cbn [mfmx length]; [reflexivity|]. rewrite IH. lia. Qed.
Lemma mfmx_data ds : forall prev k, nth (2 * k + 1) (mfmx prev ds) false = fst (nth k ds (false, false)).
Proof.
  induction ds as [|[d x] t IH]; intros prev k; cbn [mfmx].
  - destruct (2 * k + 1), k; reflexivity.
  - destruct k as [|k]; [reflexivity|]. replace (2 * S k + 1) with (S (S (2 * k + 1))) by lia. cbn [nth]. apply IH.
Qed.
Lemma mfmx_clock ds : forall prev k, S k < length ds ->
  nth (2 * S k) (mfmx prev ds) false =
    negb (snd (nth (S k) ds (false, false))) && (negb (fst (nth k ds (false, false))) && negb (fst (nth (S k) ds (false, false)))).
Proof.
  induction ds as [|[d x] t IH]; intros prev k H; cbn [length] in H; [lia|].
  cbn [mfmx]. replace (2 * S k) with (S (S (2 * k))) by lia. cbn [nth]. destruct k as [|k].
  - destruct t as [|[d2 x2] t]; [cbn in H; lia|]. cbn [mfmx nth fst snd mult]. reflexivity.
  - rewrite IH by lia. cbn [nth]. reflexivity.
Qed.
Definition flagged (ds : list (bool * bool)) (k : nat) : Prop := snd (nth k ds (false, false)) = true.
Lemma mfmx_clocks prev ds : clocks_ok (mfmx prev ds) (flagged ds).
Proof.
  intros k Hk H1 H2 H3. unfold dbit, cbit in *. rewrite mfmx_length in Hk. rewrite mfmx_data in H1, H3.
  rewrite mfmx_clock in H2 by lia. rewrite H1, H3 in H2. unfold flagged. destruct (snd _); [reflexivity|discriminate H2].
Qed.

(* ---- an Amiga track as flagged data bits ---- *)
Definition a1 : list (bool * bool) :=
  [(true, false); (false, false); (true, false); (false, false); (false, false); (false, true); (false, false); (true, false)].
Definition zeros : list (bool * bool) := map nf (repeat false 16).
Definition sec_ann (s : asector) : list (bool * bool) := zeros ++ (a1 ++ a1) ++ map nf (sector_bits s).
Definition ann (lead : list bool) (ss : list asector) (tail : list bool) : list (bool * bool) :=
  map nf lead ++ flat_map sec_ann ss ++ map nf tail.
Lemma map_fst_nf l : map fst (map nf l) = l.
Proof. rewrite map_map. unfold nf. cbn [fst]. apply map_id. Qed.
Lemma sector_cells_x prev s : sector_cells prev s = mfmx prev (sec_ann s).
Proof.
  unfold sector_cells, sec_ann. rewrite mfmx_app. unfold zeros at 1. rewrite mfmx_plain. f_equal.
  unfold zeros. rewrite map_fst_nf. change (last (repeat false 16) prev) with false.
  rewrite mfmx_app, mfmx_plain, app_assoc. reflexivity.
Qed.
Lemma last_map_sec prev s : last (map fst (sec_ann s)) prev = last (sector_bits s) true.
Proof.
  unfold sec_ann. rewrite !map_app, map_fst_nf, app_assoc. rewrite last_app_ne. f_equal.
Qed.
Lemma sectors_cells_x ss : forall prev, sectors_cells prev ss = mfmx prev (flat_map sec_ann ss) /\ last_bit prev ss = last (map fst (flat_map sec_ann ss)) prev.
Proof.
  induction ss as [|s t IH]; intros prev; [split; reflexivity|].
  cbn [sectors_cells flat_map]. rewrite mfmx_app, map_app, last_app_ne, last_map_sec, sector_cells_x.
  destruct (IH (last (sector_bits s) true)) as [A B]. rewrite A. split; [reflexivity|]. exact B.
Qed.
Lemma track_x lead ss tail : amiga_track lead ss tail = mfmx false (ann lead ss tail).
Proof.
  unfold amiga_track, ann. rewrite !mfmx_app, !mfmx_plain, map_fst_nf.
  destruct (sectors_cells_x ss (last lead false)) as [A B]. rewrite A, B. reflexivity.
Qed.

Lemma block_length l : length (block l) = 8 * length l.
Proof.
  unfold block. rewrite app_length. rewrite !(flat_map_const_length _ 4) by (intros; reflexivity). lia.
Qed.
Lemma sector_bits_length s : recorded s -> length (sector_bits s) = 160 + 64 + 8 * length (as_bytes s).
Proof.
  intros (_ & L & _). unfold sector_bits. rewrite !app_length, !block_length, L. cbn [as_info long length]. lia.
Qed.

(* ---- where the marks are ---- *)
Definition wide (W : nat) (ss : list asector) : Prop := Forall (fun s => length (sec_ann s) = W) ss.
Lemma sec_ann_length s : length (sec_ann s) = 32 + length (sector_bits s).
Proof. unfold sec_ann. rewrite !app_length, map_length. reflexivity. Qed.
Lemma nf_snd l k : snd (nth k (map nf l) (false, false)) = false.
Proof. revert k; induction l as [|x l IH]; intros [|k]; cbn [map nth nf snd]; auto. Qed.
Lemma sec_flag s k : flagged (sec_ann s) k -> k = 16 + 5 \/ k = 16 + 13.
Proof.
  unfold flagged, sec_ann. intros H. destruct (Nat.ltb_spec k 16) as [A|A].
  { rewrite app_nth1 in H by (rewrite (eq_refl : length zeros = 16); lia). unfold zeros in H. rewrite nf_snd in H. discriminate. }
  rewrite app_nth2 in H by (rewrite (eq_refl : length zeros = 16); lia). rewrite (eq_refl : length zeros = 16) in H.
  destruct (Nat.ltb_spec (k - 16) 16) as [B|B].
  - rewrite app_nth1 in H by (rewrite (eq_refl : length (a1 ++ a1) = 16); lia).
    assert (E : k = 16 + (k - 16)) by lia. set (j := k - 16) in *. clearbody j. subst k.
    do 16 (destruct j as [|j]; [solve [discriminate H | left; reflexivity | right; reflexivity]|]). lia.
  - rewrite app_nth2 in H by (rewrite (eq_refl : length (a1 ++ a1) = 16); lia). rewrite nf_snd in H. discriminate.
Qed.
Lemma secs_flag W ss : wide W ss -> forall k, flagged (flat_map sec_ann ss) k ->
  exists i, i < length ss /\ (k = W * i + 16 + 5 \/ k = W * i + 16 + 13).
Proof.
  induction 1 as [|s t Hs Ht IH]; intros k H; unfold flagged in *; cbn [flat_map] in H.
  - destruct k; discriminate H.
  - destruct (Nat.ltb_spec k W) as [A|A].
    + rewrite app_nth1 in H by lia. apply sec_flag in H. exists 0. cbn [length]. lia.
    + rewrite app_nth2 in H by lia. rewrite Hs in H. destruct (IH _ H) as (i & Hi & Hk). exists (S i). cbn [length]. split; [lia|].
      rewrite Nat.mul_succ_r. lia.
Qed.
Lemma ann_flag W lead ss tail : wide W ss -> forall k, flagged (ann lead ss tail) k ->
  exists i, i < length ss /\ (k = length lead + W * i + 16 + 5 \/ k = length lead + W * i + 16 + 13).
Proof.
  intros HW k H. unfold flagged, ann in H. destruct (Nat.ltb_spec k (length lead)) as [A|A].
  { rewrite app_nth1 in H by (rewrite map_length; lia). rewrite nf_snd in H. discriminate. }
  rewrite app_nth2 in H by (rewrite map_length; lia). rewrite map_length in H.
  destruct (Nat.ltb_spec (k - length lead) (length (flat_map sec_ann ss))) as [B|B].
  - rewrite app_nth1 in H by lia. destruct (secs_flag W ss HW _ H) as (i & Hi & Hk). exists i. split; [exact Hi|lia].
  - rewrite app_nth2 in H by lia. rewrite nf_snd in H. discriminate.
Qed.
Lemma secs_length W ss : wide W ss -> length (flat_map sec_ann ss) = W * length ss.
Proof. induction 1 as [|s t Hs Ht IH]; cbn [flat_map length]; [lia|]. rewrite app_length, IH, Hs, Nat.mul_succ_r. lia. Qed.
(* the i-th sector, with what is before and after it *)
Lemma ann_split W lead ss tail i s : wide W ss -> nth_error ss i = Some s ->
  exists a b, ann lead ss tail = a ++ sec_ann s ++ b /\ length a = length lead + W * i.
Proof.
  intros HW Hs. destruct (nth_error_split ss i Hs) as (l1 & l2 & -> & <-).
  exists (map nf lead ++ flat_map sec_ann l1), (flat_map sec_ann l2 ++ map nf tail). unfold ann.
  rewrite flat_map_app. cbn [flat_map]. split; [rewrite <- !app_assoc; reflexivity|].
  rewrite app_length, map_length. f_equal. apply secs_length. unfold wide in *. apply Forall_app in HW. tauto.
Qed.
Lemma track_split W lead ss tail i s : wide W ss -> nth_error ss i = Some s ->
  exists P prev Q, amiga_track lead ss tail = P ++ sector_cells prev s ++ Q /\ length P = 2 * (length lead + W * i).
Proof.
  intros HW Hs. destruct (ann_split W lead ss tail i s HW Hs) as (a & b & E & L).
  exists (mfmx false a), (last (map fst a) false), (mfmx (last (map fst (sec_ann s)) (last (map fst a) false)) b).
  rewrite track_x, E, !mfmx_app, sector_cells_x. split; [reflexivity|]. rewrite mfmx_length, L. reflexivity.
Qed.
Lemma track_length W lead ss tail : wide W ss -> length (amiga_track lead ss tail) = 2 * (length lead + W * length ss + length tail).
Proof. intros HW. rewrite track_x, mfmx_length. unfold ann. rewrite !app_length, !map_length, (secs_length W ss HW). lia. Qed.
Lemma dbit_sec W lead ss tail i s j : wide W ss -> nth_error ss i = Some s -> j < length (sec_ann s) ->
  dbit (amiga_track lead ss tail) (length lead + W * i + j) = fst (nth j (sec_ann s) (false, false)).
Proof.
  intros HW Hs Hj. unfold dbit. rewrite track_x, mfmx_data. destruct (ann_split W lead ss tail i s HW Hs) as (a & b & E & L).
  rewrite E, app_nth2 by lia. rewrite app_nth1 by lia. do 2 f_equal. lia.
Qed.
Lemma dbit_mark W lead ss tail i j : wide W ss -> i < length ss -> j < 16 ->
  dbit (amiga_track lead ss tail) (length lead + W * i + 16 + j) = nth j (bits_of [0xA1; 0xA1]%N) false.
Proof.
  intros HW Hi Hj. destruct (nth_error ss i) as [s|] eqn:Hs; [|apply nth_error_None in Hs; lia].
  replace (length lead + W * i + 16 + j) with (length lead + W * i + (16 + j)) by lia.
  rewrite (dbit_sec W lead ss tail i s) by (auto; rewrite sec_ann_length; lia).
  unfold sec_ann. rewrite app_nth2 by (rewrite (eq_refl : length zeros = 16); lia). rewrite (eq_refl : length zeros = 16).
  replace (16 + j - 16) with j by lia. rewrite app_nth1 by (rewrite (eq_refl : length (a1 ++ a1) = 16); lia).
  do 16 (destruct j as [|j]; [reflexivity|]). lia.
Qed.

(* ---- which windows look like a mark ---- *)
Lemma am_even l C q : clocks_ok l C -> occurs l AMIGA_DAM_MASK AMIGA_DAM_MARKER (2 * q) -> C (q + 21) /\ C (q + 29).
Proof.
  intros HC H. pose proof H as [Hlen _].
  assert (D : forall j, 16 <= j -> j < 32 -> dbit l (q + j) = nth (j - 16) (bits_of [0xA1; 0xA1]%N) false).
  { intros j Hj1 Hj. unfold dbit. replace (2 * (q + j) + 1) with (2 * q + (2 * j + 1)) by lia.
    do 32 (destruct j as [|j]; [first [exfalso; lia | rewrite (occurs_bits _ _ _ _ _ H); [reflexivity|lia|reflexivity]]|]). lia. }
  assert (K : forall j, 16 <= j -> j < 32 -> cbit l (q + j) = N.testbit AMIGA_DAM_MARKER (N.of_nat (63 - 2 * j))).
  { intros j Hj1 Hj. unfold cbit. replace (2 * (q + j)) with (2 * q + 2 * j) by lia.
    apply (occurs_bits _ _ _ _ _ H); [lia|]. do 32 (destruct j as [|j]; [first [exfalso; lia|reflexivity]|]). lia. }
  split.
  - replace (q + 21) with (S (q + 20)) by lia. apply HC; [lia|rewrite D by lia; reflexivity| |].
    + replace (S (q + 20)) with (q + 21) by lia. rewrite K by lia. reflexivity.
    + replace (S (q + 20)) with (q + 21) by lia. rewrite D by lia. reflexivity.
  - replace (q + 29) with (S (q + 28)) by lia. apply HC; [lia|rewrite D by lia; reflexivity| |].
    + replace (S (q + 28)) with (q + 29) by lia. rewrite K by lia. reflexivity.
    + replace (S (q + 28)) with (q + 29) by lia. rewrite D by lia. reflexivity.
Qed.
Lemma am_odd l C q : clocks_ok l C -> occurs l AMIGA_DAM_MASK AMIGA_DAM_MARKER (2 * q + 1) -> C (q + 18) /\ C (q + 26) /\ dbit l (q + 21) = false.
Proof.
  intros HC H. pose proof H as [Hlen _].
  assert (D : forall j, 16 <= j -> j < 32 -> dbit l (q + j) = nth (j - 16) (bits_of [0x0A; 0x0A]%N) false).
  { intros j Hj1 Hj. unfold dbit. replace (2 * (q + j) + 1) with (2 * q + 1 + 2 * j) by lia.
    do 32 (destruct j as [|j]; [first [exfalso; lia | rewrite (occurs_bits _ _ _ _ _ H); [reflexivity|lia|reflexivity]]|]). lia. }
  assert (K : forall j, 16 <= j -> j < 31 -> cbit l (q + S j) = N.testbit AMIGA_DAM_MARKER (N.of_nat (63 - (2 * j + 1)))).
  { intros j Hj1 Hj. unfold cbit. replace (2 * (q + S j)) with (2 * q + 1 + (2 * j + 1)) by lia.
    apply (occurs_bits _ _ _ _ _ H); [lia|]. do 31 (destruct j as [|j]; [first [exfalso; lia|reflexivity]|]). lia. }
  split; [|split].
  - replace (q + 18) with (S (q + 17)) by lia. apply HC; [lia|rewrite D by lia; reflexivity| |].
    + replace (S (q + 17)) with (q + S 17) by lia. rewrite K by lia. reflexivity.
    + replace (S (q + 17)) with (q + 18) by lia. rewrite D by lia. reflexivity.
  - replace (q + 26) with (S (q + 25)) by lia. apply HC; [lia|rewrite D by lia; reflexivity| |].
    + replace (S (q + 25)) with (q + S 25) by lia. rewrite K by lia. reflexivity.
    + replace (S (q + 25)) with (q + 26) by lia. rewrite D by lia. reflexivity.
  - rewrite D by lia. reflexivity.
Qed.
Lemma stride W i i' a b : 64 < W -> W * i + a = W * i' + b -> a < 64 -> b < 64 -> i = i' /\ a = b.
Proof.
  intros HW E Ha Hb. destruct (Nat.lt_trichotomy i i') as [H|[H|H]].
  - pose proof (Nat.mul_le_mono_l (S i) i' W H) as X. rewrite Nat.mul_succ_r in X. lia.
  - subst. split; [reflexivity|lia].
  - pose proof (Nat.mul_le_mono_l (S i') i W H) as X. rewrite Nat.mul_succ_r in X. lia.
Qed.
Section Marks.
Context (W : nat) (lead : list bool) (ss : list asector) (tail : list bool).
Hypothesis HW : wide W ss.
Hypothesis HW64 : 64 < W.
Notation l := (amiga_track lead ss tail).
Lemma track_clocks : clocks_ok l (flagged (ann lead ss tail)).
Proof. rewrite track_x. apply mfmx_clocks. Qed.
Lemma flag_at k : flagged (ann lead ss tail) k -> exists i, i < length ss /\ (k = length lead + W * i + 16 + 5 \/ k = length lead + W * i + 16 + 13).
Proof. apply ann_flag. exact HW. Qed.
(* two flags at distance 8 are those of one mark *)
Lemma flag_pair k : flagged (ann lead ss tail) k -> flagged (ann lead ss tail) (k + 8) -> exists i, i < length ss /\ k = length lead + W * i + 21.
Proof.
  intros H1 H2. apply flag_at in H1 as (i & Hi & H1). apply flag_at in H2 as (i' & Hi' & H2).
  exists i. split; [exact Hi|]. destruct H1 as [H1|H1]; [lia|]. exfalso.
  destruct H2 as [H2|H2].
  - destruct (stride W i i' 37 21 HW64) as [_ X]; lia.
  - destruct (stride W i i' 37 29 HW64) as [_ X]; lia.
Qed.
Lemma no_flag_triple k : flagged (ann lead ss tail) k -> flagged (ann lead ss tail) (k + 8) -> flagged (ann lead ss tail) (k + 16) -> False.
Proof.
  intros H1 H2 H3. apply (flag_pair _ H1) in H2 as X. destruct X as (i & Hi & E).
  replace (k + 16) with (k + 8 + 8) in H3 by lia. apply (flag_pair _ H2) in H3 as (i' & Hi' & E').
  destruct (stride W i i' 29 21 HW64) as [_ X]; lia.
Qed.
Lemma no_flag_adjacent k : flagged (ann lead ss tail) k -> flagged (ann lead ss tail) (k + 1) -> False.
Proof.
  intros H1 H2. apply flag_at in H1 as (i & Hi & H1). apply flag_at in H2 as (i' & Hi' & H2).
  destruct H1 as [H1|H1], H2 as [H2|H2].
  - destruct (stride W i i' 22 21 HW64) as [_ X]; lia.
  - destruct (stride W i i' 22 29 HW64) as [_ X]; lia.
  - destruct (stride W i i' 30 21 HW64) as [_ X]; lia.
  - destruct (stride W i i' 30 29 HW64) as [_ X]; lia.
Qed.
Lemma mark_occ p : occurs l AMIGA_DAM_MASK AMIGA_DAM_MARKER p -> exists i, i < length ss /\ p = 2 * (length lead + W * i).
Proof.
  intros H. pose proof track_clocks as HC. destruct (even_odd_split p) as [q [-> | ->]].
  - apply (am_even _ _ _ HC) in H as [A B]. replace (q + 29) with (q + 21 + 8) in B by lia.
    destruct (flag_pair _ A B) as (i & Hi & E). exists i. split; [exact Hi|lia].
  - exfalso. apply (am_odd _ _ _ HC) in H as (A & B & D). replace (q + 26) with (q + 18 + 8) in B by lia.
    destruct (flag_pair _ A B) as (i & Hi & E). replace (q + 21) with (length lead + W * i + 16 + 8) in D by lia.
    rewrite (dbit_mark W) in D by (auto; lia). discriminate D.
Qed.
Lemma no_a1 p : ~ occurs l A1_MASK A1_PAT p.
Proof.
  intros H. pose proof track_clocks as HC. destruct (even_odd_split p) as [q [-> | ->]].
  - apply (a1_even _ _ _ HC) in H as (A & B & D & _). apply (no_flag_triple (q + 5)); [exact A| |]; rewrite <- Nat.add_assoc; [exact B|exact D].
  - apply (a1_odd _ _ _ HC) in H as (A & B & D & _). apply (no_flag_triple (q + 2)); [exact A| |]; rewrite <- Nat.add_assoc; [exact B|exact D].
Qed.
Lemma no_c2 p : ~ occurs l A1_MASK C2_PAT p.
Proof.
  intros H. pose proof track_clocks as HC. destruct (even_odd_split p) as [q [-> | ->]].
  - apply (c2_even _ _ _ HC) in H as (A & B & D & _). apply (no_flag_triple (q + 4)); [exact A| |]; rewrite <- Nat.add_assoc; [exact B|exact D].
  - apply (c2_odd _ _ _ HC) in H as (A & B & D). replace (q + 16) with (q + 8 + 8) in B by lia.
    destruct (flag_pair _ A B) as (i & Hi & E). specialize (D 10 ltac:(lia)). replace (q + 10) with (length lead + W * i + 16 + 7) in D by lia.
    rewrite (dbit_mark W) in D by (auto; lia). discriminate D.
Qed.
Lemma mark_there i : i < length ss -> occurs l AMIGA_DAM_MASK AMIGA_DAM_MARKER (2 * (length lead + W * i)).
Proof.
  intros Hi. destruct (nth_error ss i) as [s|] eqn:Hs; [|apply nth_error_None in Hs; lia].
  destruct (track_split W lead ss tail i s HW Hs) as (P & prev & Q & E & L). rewrite E, <- L. unfold occurs, win64, sector_cells.
  assert (X : slice (P ++ (mfm prev (repeat false 16) ++ sync_mark ++ sync_mark ++ mfm true (sector_bits s)) ++ Q) (length P) 64 =
    mfm prev (repeat false 16) ++ sync_mark ++ sync_mark).
  { unfold slice. rewrite skipn_app, skipn_all2, Nat.sub_diag by lia. cbn [app skipn]. rewrite !(app_assoc _ _ (mfm true _)), <- app_assoc.
    rewrite (firstn_app 64), firstn_all2 by (destruct prev; cbn; lia).
    replace (64 - _) with 0 by (destruct prev; reflexivity). rewrite firstn_O, app_nil_r. reflexivity. }
  rewrite X. split.
  - rewrite !app_length, mfm_length. change (length (repeat false 16)) with 16. change (length sync_mark) with 16. lia.
  - destruct prev; vm_compute; reflexivity.
Qed.
(* ---- the scan ---- *)
Definition mark_at (i : nat) : nat := 2 * (length lead + W * i) + 32.
Lemma mono_mark i j : i < j -> mark_at i + 64 <= 2 * (length lead + W * j).
Proof.
  intros H. unfold mark_at. pose proof (Nat.mul_le_mono_l (S i) j W H) as X. rewrite Nat.mul_succ_r in X. lia.
Qed.
Lemma scan_from m : plain (m_bits m) -> mfm_data m = l -> forall k i fuel c acc, i + k = length ss -> k < fuel ->
  c <= 2 * (length lead + W * i) -> (forall j, j < i -> 2 * (length lead + W * j) < c) ->
  am_scan_loop fuel m c acc = Ok (acc ++ map mark_at (seq i k)).
Proof.
  intros Hp Hm. assert (Hlen : mfm_len m = length l) by (rewrite <- Hm; reflexivity).
  induction k as [|k IH]; intros i fuel c acc Hk Hf Hc Hb; (destruct fuel as [|f]; [lia|]); cbn [am_scan_loop].
  - destruct (am_next_spec m c Hp) as [(p & F & E)|[F E]]; rewrite E; cbn [obind seq map]; [exfalso|rewrite app_nil_r; reflexivity].
    destruct F as (F1 & F2 & F3 & _). rewrite Hm in F3. apply mark_occ in F3 as (j & Hj & ->). specialize (Hb j ltac:(lia)). lia.
  - pose proof (mark_there i ltac:(lia)) as HT.
    destruct (am_next_spec m c Hp) as [(p & F & E)|[F E]]; rewrite E; cbn [obind].
    + destruct F as (F1 & F2 & F3 & F4). rewrite Hm in F3, F4. apply mark_occ in F3 as (j & Hj & ->).
      assert (j = i).
      { destruct (Nat.lt_trichotomy j i) as [X|[X|X]]; [specialize (Hb j X); lia|exact X|]. exfalso. apply (F4 (2 * (length lead + W * i))); [|exact HT]. pose proof (mono_mark i j X). unfold mark_at in *. lia. }
      subst j. cbn [seq map]. rewrite (IH (S i)); try lia.
      * rewrite <- app_assoc. reflexivity.
      * pose proof (mono_mark i (S i) ltac:(lia)). unfold mark_at, MFM_BYTE_LEN in *. lia.
      * intros j Hj'. destruct (Nat.eq_dec j i) as [->|]; [unfold MFM_BYTE_LEN; lia|]. pose proof (mono_mark j i ltac:(lia)). unfold mark_at, MFM_BYTE_LEN in *. lia.
    + exfalso. apply (F (2 * (length lead + W * i))); [exact Hc| |rewrite Hm; exact HT]. rewrite Hlen. destruct HT as [HT _]. exact HT.
Qed.
Lemma am_scan_marks m : plain (m_bits m) -> mfm_data m = l -> am_scan_markers m = Ok (map mark_at (seq 0 (length ss))).
Proof.
  intros Hp Hm. unfold am_scan_markers. rewrite (scan_from m Hp Hm (length ss) 0); try lia; [reflexivity|].
  assert (Hlen : mfm_len m = length l) by (rewrite <- Hm; reflexivity). rewrite Hlen, (track_length W) by exact HW.
  pose proof (Nat.mul_le_mono_r 1 W (length ss) ltac:(lia)). lia.
Qed.
Lemma s34_scan_none m : plain (m_bits m) -> mfm_data m = l -> scan_markers m = Ok [].
Proof. intros Hp Hm. apply no_markers_scan; [exact Hp| |]; rewrite Hm; [apply no_a1|apply no_c2]. Qed.
(* no run of seven cells without a pulse *)
Lemma no_zero_run i : i + 7 <= length l -> (forall k, k < 7 -> nth (i + k) l true = false) -> False.
Proof.
  intros Hl Hz. assert (Z : forall j, i <= j < i + 7 -> nth j l false = false).
  { intros j Hj. rewrite (nth_indep l false true) by lia. replace j with (i + (j - i)) by lia. apply Hz. lia. }
  pose proof track_clocks as HC. set (k := i / 2). assert (Hk : 2 * k <= i < 2 * k + 2).
  { subst k. pose proof (Nat.div_mod i 2 ltac:(lia)). pose proof (Nat.mod_upper_bound i 2 ltac:(lia)). lia. }
  clearbody k. apply (no_flag_adjacent (S k)).
  - apply HC; unfold dbit, cbit; try (apply Z; lia). lia.
  - replace (S k + 1) with (S (S k)) by lia. apply HC; unfold dbit, cbit; try (apply Z; lia). lia.
Qed.
End Marks.
