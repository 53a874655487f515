(* Fm_props.v - C37: the FM codec. *)
From Verif Require Import Base Base_lemmas BitRing_model RangeCheck_model Mfm_model Mfm_spec BitRing_proofs Mfm_proofs Codec_lemmas Stream_proofs
  Fm_model Fm_spec Fm_proofs.

Definition fm_clock (m : Fm) (i : nat) : option bool := nth_error (f_clock m) i.

Lemma byte_of_data buf k : bytes_ok buf = true -> k < length buf ->
  bits_val (map (fun j => nth (8 * k + j) (bits_of buf) false) (seq 0 8)) = nth k buf 0%N.
Proof.
  intros Hb Hk.
  assert (E : map (fun j => nth (8 * k + j) (bits_of buf) false) (seq 0 8) = byte_bits (nth k buf 0%N)).
  { cbn [seq map]. rewrite !nth_bits_of by lia. reflexivity. }
  rewrite E. apply bits_val_byte_bits. rewrite bytes_ok_Forall in Hb. rewrite Forall_forall in Hb. 
  pose proof (Hb (nth k buf 0%N) (nth_In _ _ Hk)) as H. lia.
Qed.
Lemma nth_fm_cells ds k : nth (2 * k + 1) (fm_cells ds) false = nth k ds false.
Proof.
  revert k; induction ds as [|d t IH]; intros k; [destruct k; reflexivity|].
  unfold fm_cells. cbn [flat_map app]. fold (fm_cells t). destruct k as [|k]; [reflexivity|].
  replace (2 * S k + 1) with (S (S (2 * k + 1))) by lia. cbn [nth]. apply IH.
Qed.
(* data bits of a window holding cells, in either encoding *)
Lemma read_cells m i buf (cells : list bool) k (c : bool) : bytes_ok buf = true -> length cells = 16 * length buf ->
  (forall j, nth (2 * j + 1) cells false = nth j (bits_of buf) false) ->
  slice (f_bits m) i (16 * length buf) = cells -> i + 16 * length buf <= fm_len m -> k < length buf ->
  fm_clock m (i + 16 * k + (if c then 0 else 1)) = Some c ->
  fm_read_decoded_u8 m (i + 16 * k + (if c then 0 else 1)) = Ok (Some (nth k buf 0%N)).
Proof.
  intros Hb Hl Hc Hs Hi Hk Hcl. rewrite (read_u8_spec m _ c); [|destruct c; lia|exact Hcl|destruct c; lia].
  do 2 f_equal. rewrite <- (byte_of_data buf k Hb Hk). f_equal. apply map_ext_in. intros j Hj. apply in_seq in Hj.
  rewrite <- Hc, <- Hs. rewrite Marker_proofs.nth_slice by (unfold fm_len in Hi; lia). f_equal. destruct c; lia.
Qed.

(* FM cells are decoded: on a clock position the eight following data bits, on a data position starting with that bit. *)
Theorem C37_decode : forall m i buf k (c : bool), bytes_ok buf = true ->
  slice (f_bits m) i (16 * length buf) = fm_cells (bits_of buf) -> i + 16 * length buf <= fm_len m -> k < length buf ->
  fm_clock m (i + 16 * k + (if c then 0 else 1)) = Some c ->
  fm_read_decoded_u8 m (i + 16 * k + (if c then 0 else 1)) = Ok (Some (nth k buf 0%N)).
Proof.
  intros m i buf k c Hb Hs Hi Hk Hc. apply (read_cells m i buf (fm_cells (bits_of buf)) k c); auto.
  - unfold fm_cells. rewrite (flat_map_const_length _ 2) by reflexivity. rewrite bits_of_length. lia.
  - intros j. apply nth_fm_cells.
Qed.
(* What is written at a clock position is read back there, and nothing else changes. *)
Theorem C37_write_read : forall m buf i, bytes_ok buf = true -> buf <> [] -> i + 16 * length buf <= fm_len m ->
  (forall k, k < length buf -> fm_clock m (i + 16 * k) = Some true) ->
  exists m', fm_write_encoded_buf m buf i = Ok (m', 2 * length buf) /\ m' = fm_with_bits m (f_bits m') /\ fm_len m' = fm_len m /\
    (forall k, k < length buf -> fm_read_decoded_u8 m' (i + 16 * k) = Ok (Some (nth k buf 0%N))) /\
    (forall j, j < i \/ i + 16 * length buf <= j -> nth_error (f_bits m') j = nth_error (f_bits m) j).
Proof.
  intros m buf i Hb Hne Hi Hc.
  assert (Hp : 0 < length buf) by (destruct buf; [congruence|cbn [length]; lia]).
  unfold fm_write_encoded_buf, fm_encode. remember (mfm_encode buf false EData) as enc eqn:He.
  assert (El : length enc = 16 * length buf) by (subst enc; apply mfm_encode_length). rewrite El.
  destruct (Nat.ltb_spec (fm_len m) (i + 16 * length buf)); [lia|]. cbn [obind].
  pose proof (Hc 0 Hp) as H0. unfold fm_clock in H0. rewrite Nat.mul_0_r, Nat.add_0_r in H0. unfold oindex. rewrite H0. cbn [obind].
  rewrite encoded_fold, put_spec by (rewrite firstn_length, Nat.min_l by lia; unfold fm_len in *; lia).
  unfold omap. cbn [obind fst snd]. rewrite <- El, firstn_all. rewrite !Nat.add_0_r.
  replace (i + length enc - i) with (16 * length buf) by lia.
  replace ((16 * length buf + 7) / 8) with (2 * length buf) by (apply Nat.div_unique with 7; lia).
  assert (Hsl : length (splice (f_bits m) i enc) = length (f_bits m)) by (apply splice_length; rewrite El; exact Hi).
  eexists. split; [reflexivity|]. split; [reflexivity|]. split; [exact Hsl|]. split.
  - intros k Hk. pose proof (read_cells (fm_with_bits m (splice (f_bits m) i enc)) i buf enc k true Hb El) as R.
    cbn [fm_with_bits f_bits f_clock] in R. rewrite Nat.add_0_r in R. apply R; auto.
    + intros j. subst enc. rewrite mfm_encode_spec. apply mfm_nth_data.
    + rewrite <- El. apply slice_splice_same. unfold fm_len in *; lia.
    + change (i + 16 * length buf <= length (splice (f_bits m) i enc)). rewrite Hsl. exact Hi.
    + exact (Hc k Hk).
  - intros j Hj. cbn [fm_with_bits f_bits]. rewrite nth_error_splice by (unfold fm_len in *; lia). rewrite El.
    destruct (Nat.leb_spec i j), (Nat.ltb_spec j (i + 16 * length buf)); cbn [andb]; try reflexivity; lia.
Qed.
(* The marker search: the first FM address mark at or after start, unless it is at cell 0 (where the position calculation overflows). *)
Definition fm_first (l : list bool) (mk : MarkerEncoding) (start lim p : nat) : Prop :=
  start <= p /\ p + 64 <= lim /\ fm_mark l (me_mask mk) (me_bits mk) p /\ forall q, start <= q < p -> ~ fm_mark l (me_mask mk) (me_bits mk) q.
Definition fm_lim (m : Fm) (limit : option nat) : nat := match limit with Some l => Nat.min l (fm_len m) | None => fm_len m end.
Theorem C37_find_marker : forall m mk start limit, f_bits m <> [] ->
  (exists p, fm_first (f_bits m) mk start (fm_lim m limit) p /\
     fm_find_marker m mk start limit = if p =? 0 then Panic else Ok (Some (p, (win64 (f_bits m) p mod 2 ^ 16)%N))) \/
  ((forall q, start <= q -> q + 64 <= fm_lim m limit -> ~ fm_mark (f_bits m) (me_mask mk) (me_bits mk) q) /\
     fm_find_marker m mk start limit = Ok None).
Proof.
  intros m mk start limit Hne. unfold fm_find_marker. destruct (f_bits m) as [|b0 t] eqn:Eb; [congruence|]. rewrite <- Eb in *. clear b0 t Eb.
  fold (fm_lim m limit).
  assert (Hlim : fm_lim m limit <= length (f_bits m)) by (unfold fm_lim, fm_len; destruct limit; lia).
  assert (G : find_result (f_bits m) (fm_pat mk) start (fm_lim m limit) (fm_find_loop (f_bits m) mk (fm_lim m limit - start) start 0 0)).
  { destruct (Nat.leb_spec start (fm_lim m limit)) as [Hs|Hs].
    - rewrite fm_loop by lia.
      pose proof (find_marker_loop_spec (ring_from (f_bits m)) (fm_pat mk) start (fm_lim m limit) (fm_lim m limit - start) 0) as G.
      rewrite Nat.add_0_r in G. apply G; auto; try lia; [apply plain_from; exact Hne|]. intros q H1 H2. lia.
    - replace (fm_lim m limit - start) with 0 by lia. right. split; [|reflexivity]. intros q H1 H2. lia. }
  destruct G as [(p & (A1 & A2 & A3 & A4) & E)|(Hn & E)]; [left|right].
  - exists p. split.
    + split; [exact A1|]. split; [exact A2|]. split; [apply occurs_mark, A3|]. intros q Hq Hm. apply (A4 q Hq), occurs_mark, Hm.
    + rewrite E. change 0xFFFF%N with (N.ones 16). rewrite N.land_ones. reflexivity.
  - split; [|exact E]. intros q H1 H2 Hm. apply (Hn q H1 H2), occurs_mark, Hm.
Qed.

(* ---- findings ---- *)
(* The encoder is the MFM encoder: it produces FM cells only for runs of zero bytes after a zero bit. *)
Theorem C37_encode_is_mfm : forall buf prev, fm_encode buf prev EData = mfm prev (bits_of buf).
Proof. intros. apply mfm_encode_spec. Qed.
Lemma mfm_is_fm ds : forall prev, mfm prev ds = fm_cells ds <-> ds = [] \/ (prev = false /\ Forall (fun d => d = false) ds).
Proof.
  induction ds as [|d t IH]; intros prev; [split; auto|].
  unfold fm_cells. cbn [mfm flat_map app]. fold (fm_cells t). split.
  - intros H. inversion H as [[H1 H2]]. destruct prev, d; try discriminate. right. split; [reflexivity|].
    apply IH in H2 as [->|[_ H2]]; repeat constructor; auto.
  - intros [H|[-> H]]; [discriminate|]. inversion H; subst. cbn [negb andb]. do 2 f_equal. apply IH. auto.
Qed.
Theorem C37_clock_bits_refuted : forall buf prev, buf <> [] ->
  (fm_encode buf prev EData = fm_cells (bits_of buf) <-> prev = false /\ Forall (fun d => d = false) (bits_of buf)).
Proof.
  intros buf prev Hne. rewrite C37_encode_is_mfm, mfm_is_fm. split; [|auto].
  intros [H|H]; [|exact H]. destruct buf; [congruence|discriminate].
Qed.
(* On a fresh (blank) FM track nothing is a clock position, and what is written is not what is read. *)
Theorem C37_blank_write_refuted : exists m m' n, fm_new (repeat false 64) None None = Ok m /\
  fm_write_encoded_buf m [0xA5]%N 0 = Ok (m', n) /\ fm_read_decoded_u8 m' 0 = Ok (Some 0x52%N).
Proof. do 3 eexists. split; [vm_compute; reflexivity|]. split; vm_compute; reflexivity. Qed.
(* Reading a buffer advances by one bit per byte instead of sixteen. *)
Theorem C37_read_buf_refuted : exists m, fm_new (fm_cells (bits_of [0xA1; 0x5A; 0; 0]%N)) None None = Ok m /\
  (let m := fm_set_clock_map m (repeat true 64) in
   fm_read_decoded_u8 m 0 = Ok (Some 0xA1%N) /\ fm_read_decoded_u8 m 16 = Ok (Some 0x5A%N) /\ fm_read_decoded_buf m 2 0 = Ok [0xA1; 0xFF]%N).
Proof. eexists. split; [vm_compute; reflexivity|]. vm_compute. auto. Qed.
(* Writing a raw byte works only at position 0: anywhere else it panics (on tracks of more than 8 cells). *)
Theorem C37_write_raw_u8_refuted : forall m i b, 8 < fm_len m -> 0 < i < fm_len m -> fm_write_raw_u8 m i b = Panic.
Proof.
  intros m i b Hl Hi. unfold fm_write_raw_u8. destruct (Nat.leb_spec (fm_len m) i); [lia|].
  assert (G : forall n a l, a + n = Nat.min (i + 8) (fm_len m) -> 8 < a + n -> a <= 8 -> length l = fm_len m ->
     ofold (fun l bi => if 8 <=? bi then Panic else bits_set l bi (N.testbit b (N.of_nat (7 - bi)))) (seq a n) l = Panic).
  { induction n as [|n IH]; intros a l Ha Ha8 Hle Hll; [lia|]. cbn [seq ofold]. destruct (Nat.leb_spec 8 a); [reflexivity|].
    unfold bits_set. destruct (Nat.ltb_spec a (length l)); [|reflexivity]. cbn [obind]. apply IH; try lia. rewrite upd_length. exact Hll. }
  destruct (Nat.leb_spec i 8) as [L|L].
  - rewrite (G (Nat.min (i + 8) (fm_len m) - i) i (f_bits m)); [reflexivity|lia|lia|lia|reflexivity].
  - destruct (Nat.min (i + 8) (fm_len m) - i) as [|n] eqn:E; [lia|]. cbn [seq ofold]. destruct (Nat.leb_spec 8 i); [reflexivity|lia].
Qed.
(* Seeking to a cell goes to twice that position, and panics in the second half of the track. *)
Theorem C37_seek_refuted : forall m p,
  (forall m', fm_seek_start m p = Ok m' -> f_cursor m' = 2 * p \/ f_cursor m' = 2 * p + 1) /\
  (length (f_clock m) <= 2 * p -> fm_seek_start m p = Panic).
Proof.
  intros m p. unfold fm_seek_start. replace (p * 2) with (2 * p) by lia. split.
  - intros m' H. destruct (oindex (f_clock m) (2 * p)) as [k| |]; cbn [obind] in H; try discriminate.
    destruct (fm_len m <? _); [discriminate|]. injection H as <-. cbn [fm_with_cursor f_cursor]. destruct k; auto.
  - intros H. unfold oindex. rewrite (proj2 (nth_error_None _ _) H). reflexivity.
Qed.
(* Reading past the end of the track reports success and returns zeros. *)
Theorem C37_past_end_refuted : forall rnd m n, fm_len m <> 0 -> fm_len m - 1 <= f_cursor m -> fm_read rnd n m = Ok (repeat 0%N n, m).
Proof.
  intros rnd m n Hl Hc. induction n as [|n IH]; [reflexivity|]. cbn [fm_read fm_read_bits repeat].
  unfold fm_next. destruct (Nat.eqb_spec (fm_len m) 0); [congruence|]. destruct (Nat.leb_spec (fm_len m - 1) (f_cursor m)); [|lia].
  cbn [obind]. rewrite IH. reflexivity.
Qed.
(* The 32-bit reads are not implemented. *)
Theorem C37_u32_refuted : forall m i, fm_read_decoded_u32_le m i = Panic /\ fm_read_decoded_u32_be m i = Panic.
Proof. split; reflexivity. Qed.

Definition ex_fm : Fm := mkFm (true :: flat_map (fun d => [true; d]) (bits_of [0xFF; 0xFF; 0xFF; 0]%N)) (repeat true 65) true [] 0 0 0 [] [].
Example C37_ex : exists m', fm_write_encoded_buf ex_fm [0xA1; 0x5A]%N 8 = Ok (m', 4) /\ fm_read_decoded_u8 m' 24 = Ok (Some 0x5A%N).
Proof. eexists. split; vm_compute; reflexivity. Qed.
(* an ID address mark FE with clocks C7 after three bytes, at cell 1 *)
Definition ex_mark : list bool :=
  true :: fm_cells (bits_of [0; 0; 0]%N) ++ flat_map (fun p => [fst p; snd p]) (combine (byte_bits 0xC7) (byte_bits 0xFE)).
Example C37_mark_ex : exists m, fm_new ex_mark None None = Ok m /\ fm_find_marker m (mkMarker 0x5554 0x5555 64) 0 None = Ok (Some (1, 0xF57E%N)).
Proof. eexists. split; vm_compute; reflexivity. Qed.

Print Assumptions C37_decode.
Print Assumptions C37_write_read.
Print Assumptions C37_find_marker.
Print Assumptions C37_encode_is_mfm.
Print Assumptions C37_clock_bits_refuted.
Print Assumptions C37_blank_write_refuted.
Print Assumptions C37_read_buf_refuted.
Print Assumptions C37_write_raw_u8_refuted.
Print Assumptions C37_seek_refuted.
Print Assumptions C37_past_end_refuted.
Print Assumptions C37_u32_refuted.
