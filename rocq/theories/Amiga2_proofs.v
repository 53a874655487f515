(* Amiga2_proofs.v - the values the Amiga scanner reads from the cells of a recorded sector: odd/even bytes,
   checksums, and the elements of one sector. *)
From Verif Require Import Base Base_lemmas Chs_model BitRing_model BitRing_proofs Mfm_model Mfm_spec Mfm_proofs Marker_proofs Codec_lemmas
  Crc_model Types_model System34_model BitStream_model OddEven_model OddEven_proofs Amiga_model Amiga_spec Amiga_proofs Bs_general_proofs.
From Coq Require Import Lia.

(* ---- bits ---- *)
Lemma bits_val_inj a : forall b, length a = length b -> bits_val a = bits_val b -> a = b.
Proof.
  intros b Hl H. apply (list_eq_nth_error a b). intros i.
  destruct (Nat.ltb_spec i (length a)) as [Hi|Hi].
  - rewrite !(nth_error_nth' _ false) by lia. f_equal.
    rewrite <- (testbit_bits_val a) by lia. rewrite <- (testbit_bits_val b) by lia. rewrite Hl, H. reflexivity.
  - rewrite !(proj2 (nth_error_None _ _)) by lia. reflexivity.
Qed.
Definition xor2 (a b : list bool) : list bool := map (fun p => xorb (fst p) (snd p)) (combine a b).
Lemma lxor_bits a : forall b, length a = length b -> N.lxor (bits_val a) (bits_val b) = bits_val (xor2 a b).
Proof.
  induction a as [|x a IH] using rev_ind; intros b Hl.
  - destruct b; [reflexivity|discriminate Hl].
  - destruct b as [|y b _] using rev_ind; [rewrite app_length in Hl; cbn in Hl; lia|].
    assert (Hl' : length a = length b) by (rewrite !app_length in Hl; cbn in Hl; lia).
    assert (E : xor2 (a ++ [x]) (b ++ [y]) = xor2 a b ++ [xorb x y]).
    { unfold xor2. clear IH Hl. revert b Hl'. induction a as [|z a IH]; intros [|w b] Hl; try discriminate Hl; [reflexivity|].
      cbn. f_equal. apply IH. cbn in Hl; lia. }
    rewrite E, !bits_val_snoc, <- (IH b Hl').
    apply N.bits_inj. intros i. rewrite N.lxor_spec, !testbit_snoc, N.lxor_spec. destruct (i =? 0)%N; reflexivity.
Qed.
Lemma xor2_length a b : length a = length b -> length (xor2 a b) = length a.
Proof. intros H. unfold xor2. rewrite map_length, combine_length. lia. Qed.
Lemma xors_S k l : xors (S k) l = xor2 (firstn 16 l) (xors k (skipn 16 l)).
Proof. reflexivity. Qed.
Lemma xors_length k : forall l, 16 * k <= length l -> length (xors k l) = 16.
Proof.
  induction k as [|k IH]; intros l Hl; [reflexivity|]. rewrite xors_S.
  assert (length (firstn 16 l) = 16) by (rewrite firstn_length; lia).
  rewrite xor2_length; [assumption|]. rewrite IH; [lia|]. rewrite skipn_length. lia.
Qed.
Lemma firstn_split {A} a b (l : list A) : firstn (a + b) l = firstn a l ++ firstn b (skipn a l).
Proof. revert l; induction a as [|a IH]; intros l; [reflexivity|]. destruct l; cbn; [rewrite firstn_nil; reflexivity|]. rewrite IH. reflexivity. Qed.
Lemma xor_words_bits k : forall l acc, 16 * k <= length l -> xor_words (bytes_of (2 * k) l) acc = N.lxor acc (bits_val (xors k l)).
Proof.
  induction k as [|k IH]; intros l acc Hl.
  - cbn [Nat.mul bytes_of xor_words xors]. change (bits_val (repeat false 16)) with 0%N. rewrite N.lxor_0_r. reflexivity.
  - replace (2 * S k) with (S (S (2 * k))) by lia. cbn [bytes_of xor_words].
    assert (Hs : length (skipn 16 l) = length l - 16) by apply skipn_length.
    rewrite skipn_skipn'. change (8 + 8) with 16. rewrite IH by lia. rewrite xors_S, <- lxor_bits.
    2:{ rewrite xors_length by lia. rewrite firstn_length. lia. }
    rewrite N.lxor_assoc. f_equal. f_equal. change 16 with (8 + 8). rewrite firstn_split, bits_val_app.
    rewrite firstn_length, skipn_length. replace (Nat.min 8 (length l - 8)) with 8 by lia. change (2 ^ N.of_nat 8)%N with 256%N. lia.
Qed.

(* ---- bytes in odd and even halves ---- *)
Definition sp (l : list bool) : N := bits_val (flat_map (fun b => [false; b]) l).
Lemma land55 c0 d0 c1 d1 c2 d2 c3 d3 :
  N.land (bits_val [c0; d0; c1; d1; c2; d2; c3; d3]) 0x55 = sp [d0; d1; d2; d3].
Proof. destruct c0, d0, c1, d1, c2, d2, c3, d3; reflexivity. Qed.
Lemma byte_facts (f : N -> bool) : forallb f (map N.of_nat (seq 0 256)) = true -> forall b, (b < 256)%N -> f b = true.
Proof.
  intros H b Hb. rewrite forallb_forall in H. apply H. rewrite in_map_iff. exists (N.to_nat b).
  split; [apply N2Nat.id|]. apply in_seq. lia.
Qed.
Lemma join_byte b : (b < 256)%N -> N.lor (as_u8 (N.shiftl (sp (odd_bits b)) 1)) (sp (even_bits b)) = b.
Proof.
  intros H. apply N.eqb_eq.
  apply (byte_facts (fun b => (N.lor (as_u8 (N.shiftl (sp (odd_bits b)) 1)) (sp (even_bits b)) =? b)%N)); [vm_compute; reflexivity|exact H].
Qed.
Lemma join_byte' b : (b < 256)%N -> N.lor (N.shiftl (sp (odd_bits b)) 1) (sp (even_bits b)) = b.
Proof.
  intros H. apply N.eqb_eq.
  apply (byte_facts (fun b => (N.lor (N.shiftl (sp (odd_bits b)) 1) (sp (even_bits b)) =? b)%N)); [vm_compute; reflexivity|exact H].
Qed.
Lemma sp_small a b c d : (sp [a; b; c; d] < 128)%N.
Proof. destruct a, b, c, d; reflexivity. Qed.
Lemma odd_sp a b c d : odd_bits (sp [a; b; c; d]) = [false; false; false; false] /\ even_bits (sp [a; b; c; d]) = [a; b; c; d].
Proof. destruct a, b, c, d; split; reflexivity. Qed.

Local Open Scope N_scope.
Lemma land_sh24 a : a < 256 -> N.land (N.shiftl a 24) 0x55555555 = N.shiftl (N.land a 0x55) 24.
Proof. intros H. apply N.eqb_eq. apply (byte_facts (fun a => N.land (N.shiftl a 24) 0x55555555 =? N.shiftl (N.land a 0x55) 24)); [vm_compute; reflexivity|exact H]. Qed.
Lemma land_sh16 a : a < 256 -> N.land (N.shiftl a 16) 0x55555555 = N.shiftl (N.land a 0x55) 16.
Proof. intros H. apply N.eqb_eq. apply (byte_facts (fun a => N.land (N.shiftl a 16) 0x55555555 =? N.shiftl (N.land a 0x55) 16)); [vm_compute; reflexivity|exact H]. Qed.
Lemma land_sh8 a : a < 256 -> N.land (N.shiftl a 8) 0x55555555 = N.shiftl (N.land a 0x55) 8.
Proof. intros H. apply N.eqb_eq. apply (byte_facts (fun a => N.land (N.shiftl a 8) 0x55555555 =? N.shiftl (N.land a 0x55) 8)); [vm_compute; reflexivity|exact H]. Qed.
Lemma land_sh0 a : a < 256 -> N.land a 0x55555555 = N.land a 0x55.
Proof. intros H. apply N.eqb_eq. apply (byte_facts (fun a => N.land a 0x55555555 =? N.land a 0x55)); [vm_compute; reflexivity|exact H]. Qed.
Lemma land_be32 a b c d : a < 256 -> b < 256 -> c < 256 -> d < 256 ->
  N.land (be32 a b c d) 0x55555555 = be32 (N.land a 0x55) (N.land b 0x55) (N.land c 0x55) (N.land d 0x55).
Proof.
  intros. unfold be32. rewrite !N.land_lor_distr_l, land_sh24, land_sh16, land_sh8, land_sh0 by assumption. reflexivity.
Qed.
Lemma be32_val a b c d : a < 256 -> b < 256 -> c < 256 -> d < 256 -> be32 a b c d = a * 2 ^ 24 + (b * 2 ^ 16 + (c * 2 ^ 8 + d)).
Proof.
  intros. unfold be32. rewrite <- (glue_lor 8 c d) by (change (2 ^ 8) with 256; assumption).
  change (2 ^ 8) with 256. change (2 ^ 16) with 65536. change (2 ^ 24) with 16777216.
  rewrite <- (glue_lor 16 b) by (change (2 ^ 16) with 65536; lia).
  change (2 ^ 16) with 65536.
  rewrite <- (glue_lor 24 a) by (change (2 ^ 24) with 16777216; lia). reflexivity.
Qed.
Lemma lor_be32 a b c d a' b' c' d' :
  N.lor (be32 a b c d) (be32 a' b' c' d') = be32 (N.lor a a') (N.lor b b') (N.lor c c') (N.lor d d').
Proof.
  unfold be32. rewrite !N.shiftl_lor. apply N.bits_inj. intros i. rewrite !N.lor_spec.
  repeat match goal with |- context [N.testbit ?x i] => let t := fresh "t" in generalize (N.testbit x i); intros t end.
  repeat match goal with t : bool |- _ => destruct t; [try reflexivity|] end; reflexivity.
Qed.
Lemma shl_be32 a b c d : a < 128 -> b < 128 -> c < 128 -> d < 128 ->
  as_u32 (N.shiftl (be32 a b c d) 1) = be32 (N.shiftl a 1) (N.shiftl b 1) (N.shiftl c 1) (N.shiftl d 1).
Proof.
  intros. rewrite !N.shiftl_mul_pow2. change (2 ^ 1) with 2. rewrite !be32_val by lia. unfold as_u32.
  rewrite N.mod_small; [lia|].
  change (2 ^ 32) with 4294967296. change (2 ^ 8) with 256. change (2 ^ 16) with 65536. change (2 ^ 24) with 16777216. lia.
Qed.
Lemma to_be32_be32 a b c d : a < 256 -> b < 256 -> c < 256 -> d < 256 -> to_be32 (be32 a b c d) = [a; b; c; d].
Proof.
  intros. rewrite be32_val by assumption. unfold to_be32. rewrite !N.shiftr_div_pow2.
  change 0xFF with (N.ones 8). rewrite !N.land_ones.
  change (2 ^ 8) with 256. change (2 ^ 16) with 65536. change (2 ^ 24) with 16777216.
  f_equal; [|f_equal; [|f_equal; [|f_equal]]].
  - symmetry. apply (N.mod_unique _ _ 0); [assumption|]. symmetry.
    rewrite N.mul_0_r, N.add_0_l. apply (N.div_unique _ _ _ (b * 65536 + (c * 256 + d))); lia.
  - symmetry. apply (N.mod_unique _ _ a); [assumption|]. symmetry.
    apply (N.div_unique _ _ _ (c * 256 + d)); lia.
  - symmetry. apply (N.mod_unique _ _ (a * 256 + b)); [assumption|]. symmetry.
    apply (N.div_unique _ _ _ d); lia.
  - symmetry. apply (N.mod_unique _ _ (a * 65536 + b * 256 + c)); [assumption|]. lia.
Qed.
Lemma long_val v : v < 2 ^ 32 -> exists a b c d, long v = [a; b; c; d] /\ a < 256 /\ b < 256 /\ c < 256 /\ d < 256 /\ v = be32 a b c d.
Proof.
  intros Hv. do 4 eexists. split; [reflexivity|]. pose proof (N.mod_lt (v / 2 ^ 24) 256 ltac:(lia)). pose proof (N.mod_lt (v / 2 ^ 16) 256 ltac:(lia)).
  pose proof (N.mod_lt (v / 2 ^ 8) 256 ltac:(lia)). pose proof (N.mod_lt v 256 ltac:(lia)).
  do 4 (split; [assumption|]). rewrite be32_val by assumption.
  change (2 ^ 32) with 4294967296 in Hv. change (2 ^ 8) with 256 in *. change (2 ^ 16) with 65536 in *. change (2 ^ 24) with 16777216 in *.
  pose proof (N.div_mod v 256 ltac:(lia)). pose proof (N.div_mod (v / 256) 256 ltac:(lia)). pose proof (N.div_mod (v / 65536) 256 ltac:(lia)).
  assert (E1 : v / 256 / 256 = v / 65536) by (rewrite N.div_div by lia; reflexivity).
  assert (E2 : v / 65536 / 256 = v / 16777216) by (rewrite N.div_div by lia; reflexivity).
  rewrite E1 in *. rewrite E2 in *.
  assert (v / 16777216 < 256) by (apply N.div_lt_upper_bound; lia).
  rewrite (N.mod_small (v / 16777216)) in * by assumption. lia.
Qed.
(* the checksum comparison the code makes is the comparison of longs *)
Lemma four_bytes_sp x : length x = 16%nat ->
  exists a b c d, a < 256 /\ b < 256 /\ c < 256 /\ d < 256 /\ sp x = be32 a b c d /\ long (sp x) = [a; b; c; d] /\
    flat_map odd_bits [a; b; c; d] = repeat false 16 /\ flat_map even_bits [a; b; c; d] = x.
Proof.
  intros H. do 16 (destruct x as [|? x]; [discriminate H|]). destruct x; [|discriminate H].
  exists (sp [b; b0; b1; b2]), (sp [b3; b4; b5; b6]), (sp [b7; b8; b9; b10]), (sp [b11; b12; b13; b14]).
  pose proof (sp_small b b0 b1 b2). pose proof (sp_small b3 b4 b5 b6). pose proof (sp_small b7 b8 b9 b10). pose proof (sp_small b11 b12 b13 b14).
  do 4 (split; [lia|]).
  assert (E : sp [b; b0; b1; b2; b3; b4; b5; b6; b7; b8; b9; b10; b11; b12; b13; b14] =
              be32 (sp [b; b0; b1; b2]) (sp [b3; b4; b5; b6]) (sp [b7; b8; b9; b10]) (sp [b11; b12; b13; b14])).
  { rewrite be32_val by lia.
    change (sp [b; b0; b1; b2; b3; b4; b5; b6; b7; b8; b9; b10; b11; b12; b13; b14]) with
      (bits_val (flat_map (fun b => [false; b]) [b; b0; b1; b2] ++ flat_map (fun b => [false; b]) [b3; b4; b5; b6] ++
                 flat_map (fun b => [false; b]) [b7; b8; b9; b10] ++ flat_map (fun b => [false; b]) [b11; b12; b13; b14])).
    rewrite !bits_val_app. rewrite !app_length. rewrite !(flat_map_const_length _ 2) by reflexivity. cbn [length Nat.mul Nat.add].
    unfold sp. change (2 ^ N.of_nat 8) with 256. change (2 ^ N.of_nat 16) with 65536. change (2 ^ N.of_nat 24) with 16777216.
    change (2 ^ 8) with 256. change (2 ^ 16) with 65536. change (2 ^ 24) with 16777216. lia. }
  split; [exact E|]. split.
  - rewrite E. destruct (long_val (be32 (sp [b; b0; b1; b2]) (sp [b3; b4; b5; b6]) (sp [b7; b8; b9; b10]) (sp [b11; b12; b13; b14]))) as (p & q & r & s & L & ? & ? & ? & ? & E2).
    { rewrite be32_val by lia. change (2 ^ 32) with 4294967296. change (2 ^ 8) with 256. change (2 ^ 16) with 65536. change (2 ^ 24) with 16777216. lia. }
    rewrite L. rewrite <- (to_be32_be32 p q r s) by assumption. rewrite <- E2. apply to_be32_be32; lia.
  - cbn [flat_map]. rewrite !(proj1 (odd_sp _ _ _ _)), !(proj2 (odd_sp _ _ _ _)). split; reflexivity.
Qed.
Lemma checksum_cmp v x : v < 2 ^ 32 -> length x = 16%nat -> (bits_val (block (long v)) =? bits_val x) = (v =? sp x).
Proof.
  intros Hv Hx. apply eq_true_iff_eq. rewrite !N.eqb_eq. destruct (four_bytes_sp x Hx) as (a & b & c & d & ? & ? & ? & ? & E & L & O & V).
  assert (EX : bits_val (repeat false 16 ++ x) = bits_val x).
  { rewrite bits_val_app. change (bits_val (repeat false 16)) with 0. lia. }
  split.
  - intros H3. rewrite <- EX in H3. destruct (long_val v Hv) as (p & q & r & s & Lv & ? & ? & ? & ? & Ev). rewrite Lv in H3.
    apply bits_val_inj in H3; [|rewrite block_length, app_length, repeat_length, Hx; reflexivity].
    unfold block in H3. rewrite <- O, <- V in H3.
    unfold odd_bits, even_bits in H3. cbn [flat_map app] in H3.
    assert (K : forall u w, u < 256 -> w < 256 -> odd_bits u = odd_bits w -> even_bits u = even_bits w -> u = w).
    { intros u w Hu Hw A B. rewrite <- (join_byte' u), <- (join_byte' w) by assumption. rewrite A, B. reflexivity. }
    rewrite Ev, E. unfold odd_bits, even_bits in K. inversion H3 as [[R1 R2 R3 R4 R5 R6 R7 R8 R9 R10 R11 R12 R13 R14 R15 R16 R17 R18 R19 R20 R21 R22 R23 R24 R25 R26 R27 R28 R29 R30 R31 R32]]. clear H3. f_equal; apply K; try assumption; congruence.
  - intros ->. rewrite L. unfold block. rewrite O, V. exact EX.
Qed.
Local Close Scope N_scope.

(* ---- reading the fields ---- *)
(* the data bits B are recorded in MFM from cell p on *)
Definition holds_at (m : Mfm) (p : nat) (B : list bool) : Prop :=
  mfm_wf m /\ data_window (mfm_data m) p (length B) = B /\
  (forall a, a < length B -> clk m (p + 2 * a + 1) = false) /\ (forall k, weak_at m k = false).
Lemma holds_slice m p B a n : holds_at m p B -> a + n <= length B -> data_window (mfm_data m) (p + 2 * a) n = slice B a n.
Proof.
  intros (_ & HB & _) Hn. replace (length B) with (a + (n + (length B - a - n))) in HB by lia. rewrite !data_window_app in HB.
  unfold slice. set (x := data_window (mfm_data m) p a) in HB. set (y := data_window (mfm_data m) (p + 2 * a) n) in *.
  rewrite <- HB. assert (length x = a) by apply data_window_length. assert (length y = n) by apply data_window_length.
  rewrite skipn_app_exact by auto. rewrite firstn_app_exact by auto. reflexivity.
Qed.
Lemma read_dec m p B a n rnd : holds_at m p B -> 8 * a + 8 * n <= length B ->
  read_decoded_buf rnd m n (p + 16 * a) = Ok (bytes_of n (slice B (8 * a) (8 * n))).
Proof.
  intros H Hn. destruct (H) as (W & _ & C & K). rewrite (read_decoded_buf_spec rnd m (p + 16 * a) n 0).
  - rewrite Nat.add_0_r. f_equal. f_equal. replace (p + 16 * a) with (p + 2 * (8 * a)) by lia. apply holds_slice; [exact H|lia].
  - exact W.
  - left. split; [reflexivity|]. intros k Hk. right. replace (p + 16 * a + 16 * k + 1) with (p + 2 * (8 * a + 8 * k) + 1) by lia. apply C. lia.
  - intros k _. apply K.
Qed.
Lemma bytes_of_nth n l k : k < n -> nth_error (bytes_of n l) k = Some (bits_val (slice l (8 * k) 8)).
Proof.
  revert l k; induction n as [|n IH]; intros l k Hk; [lia|]. destruct k as [|k]; cbn [bytes_of nth_error].
  - unfold slice. rewrite Nat.mul_0_r. reflexivity.
  - rewrite IH by lia. unfold slice. rewrite skipn_skipn'. do 4 f_equal. lia.
Qed.
Lemma raw_nth m n p k : plain (m_bits m) -> k < n -> exists raw,
  read_raw_buf m n p = Ok raw /\ length raw = n.
Proof.
  intros H Hk. rewrite read_raw_buf_spec by exact H. eexists; split; [reflexivity|]. rewrite bytes_of_window, map_length, seq_length. reflexivity.
Qed.
Lemma raw_byte m p B c n k raw : holds_at m p B -> read_raw_buf m n (p + 2 * c) = Ok raw -> k < n -> c + 4 * k + 4 <= length B ->
  exists x, nth_error raw k = Some x /\ (x < 256)%N /\ N.land x 0x55 = sp (slice B (c + 4 * k) 4).
Proof.
  intros H E Hk Hc. destruct (H) as (W & _ & _ & _). rewrite read_raw_buf_spec in E by apply W. apply (f_equal (fun x => match x with Ok y => y | _ => raw end)) in E.
  rewrite <- E. clear E. rewrite bytes_of_window, nth_error_map_seq. destruct (Nat.ltb_spec k n); [|lia]. eexists; split; [reflexivity|]. cbn [plus].
  set (w := window (mfm_data m) (p + 2 * c + k * 8) 8).
  assert (Lw : length w = 8) by apply window_length.
  assert (Hd : forall j, j < 4 -> nth (2 * j + 1) w false = nth j (slice B (c + 4 * k) 4) false).
  { intros j Hj. rewrite <- (holds_slice m p B) by (auto; lia). unfold data_window, w, window.
    rewrite (nth_error_nth (map (circ (mfm_data m)) (seq (p + 2 * c + k * 8) 8)) (2 * j + 1) false (x := circ (mfm_data m) (p + 2 * c + k * 8 + (2 * j + 1)))).
    2:{ rewrite nth_error_map_seq. destruct (Nat.ltb_spec (2 * j + 1) 8); [reflexivity|lia]. }
    symmetry. apply nth_error_nth. rewrite nth_error_map_seq. destruct (Nat.ltb_spec j 4); [|lia]. do 2 f_equal. lia. }
  assert (Ls : length (slice B (c + 4 * k) 4) = 4) by (apply slice_length; lia).
  generalize dependent (slice B (c + 4 * k) 4). intros s Hd Ls. clearbody w.
  split; [pose proof (bits_val_lt w) as X; rewrite Lw in X; exact X|].
  do 8 (destruct w as [|? w]; [discriminate Lw|]). destruct w; [|discriminate Lw].
  do 4 (destruct s as [|? s]; [discriminate Ls|]). destruct s; [|discriminate Ls].
  pose proof (Hd 0 ltac:(lia)) as D0. pose proof (Hd 1 ltac:(lia)) as D1. pose proof (Hd 2 ltac:(lia)) as D2. pose proof (Hd 3 ltac:(lia)) as D3.
  cbn [nth Nat.mul Nat.add] in *. rewrite land55, D0, D1, D2, D3. reflexivity.
Qed.
Lemma slice_app_l {A} (x y : list A) a n : a + n <= length x -> slice (x ++ y) a n = slice x a n.
Proof. intros H. unfold slice. rewrite skipn_app, firstn_app, skipn_length. replace (n - (length x - a)) with 0 by lia. cbn. apply app_nil_r. Qed.
Lemma slice_app_r {A} (x y : list A) a n : slice (x ++ y) (length x + a) n = slice y a n.
Proof. unfold slice. rewrite skipn_app. rewrite (skipn_all2 x) by lia. replace (length x + a - length x) with a by lia. reflexivity. Qed.
Lemma slice_four (f : N -> list bool) l : (forall b, length (f b) = 4) -> forall k b, nth_error l k = Some b -> slice (flat_map f l) (4 * k) 4 = f b.
Proof.
  intros Hf. induction l as [|x l IH]; intros k b E; [destruct k; discriminate E|]. destruct k as [|k].
  - injection E as ->. cbn [flat_map]. unfold slice. rewrite Nat.mul_0_r, skipn_O. rewrite firstn_app_exact by apply Hf. reflexivity.
  - cbn [flat_map]. replace (4 * S k) with (length (f x) + 4 * k) by (rewrite Hf; lia). rewrite slice_app_r. apply IH, E.
Qed.
(* a block recorded within B, from bit c on *)
Lemma block_halves m p B c X n k raw b : holds_at m p B -> slice B c (length (block X)) = block X -> c + length (block X) <= length B ->
  read_raw_buf m n (p + 2 * c) = Ok raw -> k + length X < n -> nth_error X k = Some b ->
  exists o e, nth_error raw k = Some o /\ nth_error raw (k + length X) = Some e /\ (o < 256 /\ e < 256)%N /\
    N.land o 0x55 = sp (odd_bits b) /\ N.land e 0x55 = sp (even_bits b).
Proof.
  intros H Hs Hc E Hn Hb. assert (Hk : k < length X) by (apply nth_error_Some; rewrite Hb; discriminate).
  rewrite block_length in *.
  destruct (raw_byte m p B c n k raw H E ltac:(lia) ltac:(lia)) as (o & Eo & Lo & Vo).
  destruct (raw_byte m p B c n (k + length X) raw H E ltac:(lia) ltac:(lia)) as (e & Ee & Le & Ve).
  exists o, e. split; [exact Eo|]. split; [exact Ee|]. split; [split; assumption|].
  assert (S1 : forall j, j + 4 <= 8 * length X -> slice B (c + j) 4 = slice (block X) j 4).
  { intros j Hj. rewrite <- Hs. unfold slice. rewrite skipn_firstn_comm, firstn_firstn, skipn_skipn'. do 2 f_equal; lia. }
  assert (Lodd : length (flat_map odd_bits X) = 4 * length X) by (rewrite (flat_map_const_length _ 4); [lia|reflexivity]).
  rewrite Vo, Ve. split; f_equal.
  - rewrite S1 by lia. unfold block. rewrite slice_app_l by lia. apply slice_four; [reflexivity|exact Hb].
  - rewrite S1 by lia. unfold block. replace (4 * (k + length X)) with (length (flat_map odd_bits X) + 4 * k) by lia. rewrite slice_app_r. apply slice_four; [reflexivity|exact Hb].
Qed.

Lemma bytes_of_four x : length x = 32 -> exists a b c d, bytes_of 4 x = [a; b; c; d] /\ (a < 256 /\ b < 256 /\ c < 256 /\ d < 256)%N /\ be32 a b c d = bits_val x.
Proof.
  intros H. replace x with (firstn 8 x ++ firstn 8 (skipn 8 x) ++ firstn 8 (skipn 16 x) ++ firstn 8 (skipn 24 x)) by
    (do 32 (destruct x as [|? x]; [discriminate H|]); destruct x; [reflexivity|discriminate H]).
  assert (L1 : length (firstn 8 x) = 8) by (rewrite firstn_length; lia).
  assert (L2 : length (firstn 8 (skipn 8 x)) = 8) by (rewrite firstn_length, skipn_length; lia).
  assert (L3 : length (firstn 8 (skipn 16 x)) = 8) by (rewrite firstn_length, skipn_length; lia).
  assert (L4 : length (firstn 8 (skipn 24 x)) = 8) by (rewrite firstn_length, skipn_length; lia).
  set (w := firstn 8 x) in *. set (y := firstn 8 (skipn 8 x)) in *. set (z := firstn 8 (skipn 16 x)) in *. set (u := firstn 8 (skipn 24 x)) in *. clearbody w y z u.
  exists (bits_val w), (bits_val y), (bits_val z), (bits_val u). 
  assert (forall l, length l = 8 -> (bits_val l < 256)%N) as B by (intros l Hl; pose proof (bits_val_lt l) as X; rewrite Hl in X; exact X).
  split; [|split].
  - rewrite !bytes_of_app8 by auto. rewrite <- (app_nil_r u) at 1. rewrite bytes_of_app8 by auto. reflexivity.
  - repeat split; apply B; assumption.
  - rewrite be32_val by (apply B; assumption). rewrite !bits_val_app, !app_length, L2, L3, L4. cbn [Nat.add].
    change (2 ^ N.of_nat 8)%N with 256%N. change (2 ^ N.of_nat 16)%N with 65536%N. change (2 ^ N.of_nat 24)%N with 16777216%N.
    change (2 ^ 8)%N with 256%N. change (2 ^ 16)%N with 65536%N. change (2 ^ 24)%N with 16777216%N. lia.
Qed.
Lemma decode_sum rnd m p B a : holds_at m p B -> 8 * a + 32 <= length B ->
  am_decode_checksum rnd m (p + 16 * a) = Ok (bits_val (slice B (8 * a) 32)).
Proof.
  intros H Hl. unfold am_decode_checksum. rewrite (read_dec m p B) by (auto; lia). cbn [obind].
  change (8 * 4) with 32. destruct (bytes_of_four (slice B (8 * a) 32)) as (w & x & y & z & E & _ & V); [apply slice_length; lia|].
  rewrite E. unfold be32_of, oindex. cbn [nth_error obind]. f_equal. exact V.
Qed.
Lemma calc_sum rnd m p B a k e : holds_at m p B -> 8 * a + 16 * k <= length B -> e = p + 16 * a + 32 * k ->
  am_checksum_u32 rnd m (p + 16 * a) e = Ok (bits_val (xors k (slice B (8 * a) (16 * k)))).
Proof.
  intros H Hl ->. unfold am_checksum_u32. destruct (Nat.ltb_spec (p + 16 * a + 32 * k) (p + 16 * a)); [lia|].
  replace ((p + 16 * a + 32 * k - (p + 16 * a)) / 16) with (2 * k).
  2:{ replace (p + 16 * a + 32 * k - (p + 16 * a)) with (2 * k * 16) by lia. rewrite Nat.div_mul by lia. reflexivity. }
  destruct (H) as (W & _ & _ & _). destruct W as (W1 & W2 & W3 & W4). unfold ring_len at 1.
  destruct (Nat.eqb_spec (length (r_bits (m_clock m))) 0); [lia|].
  rewrite clk_get by apply H. cbn [obind]. rewrite (read_dec m p B) by (auto; lia). cbn [obind].
  replace (8 * (2 * k)) with (16 * k) by lia. rewrite xor_words_bits.
  - rewrite N.lxor_0_l. reflexivity.
  - rewrite slice_length by lia. lia.
Qed.
(* where the fields are *)
Lemma fields s : recorded s ->
  slice (sector_bits s) 0 32 = block (as_info s) /\ slice (sector_bits s) 160 32 = block (long (as_header_sum s)) /\
  slice (sector_bits s) 192 32 = block (long (as_data_sum s)) /\
  slice (sector_bits s) 224 (8 * length (as_bytes s)) = block (as_bytes s).
Proof.
  intros (_ & L & _). unfold sector_bits.
  assert (L1 : length (block (as_info s)) = 32) by (rewrite block_length; reflexivity).
  assert (L2 : length (block (as_label s)) = 128) by (rewrite block_length, L; reflexivity).
  assert (L3 : length (block (long (as_header_sum s))) = 32) by (rewrite block_length; reflexivity).
  assert (L4 : length (block (long (as_data_sum s))) = 32) by (rewrite block_length; reflexivity).
  pose proof (block_length (as_bytes s)) as L5.
  set (x1 := block (as_info s)) in *. set (x2 := block (as_label s)) in *. set (x3 := block (long (as_header_sum s))) in *.
  set (x4 := block (long (as_data_sum s))) in *. set (x5 := block (as_bytes s)) in *. clearbody x1 x2 x3 x4 x5.
  assert (WH : forall (x y : list bool) n, length x = n -> slice (x ++ y) 0 n = x).
  { intros x y n Hn. unfold slice. rewrite skipn_O. apply firstn_app_exact. auto. }
  split; [apply WH; exact L1|]. split.
  { replace 160 with (length x1 + (length x2 + 0)) by (rewrite L1, L2; reflexivity). rewrite !slice_app_r. apply WH; exact L3. }
  split.
  { replace 192 with (length x1 + (length x2 + (length x3 + 0))) by (rewrite L1, L2, L3; reflexivity). rewrite !slice_app_r. apply WH; exact L4. }
  { replace 224 with (length x1 + (length x2 + (length x3 + (length x4 + 0)))) by (rewrite L1, L2, L3, L4; reflexivity). rewrite !slice_app_r.
    unfold slice. rewrite skipn_O. apply firstn_all2. lia. }
Qed.
(* the four info bytes *)
Lemma decode_info rnd m p B info : holds_at m p B -> length info = 4 -> bytes_ok info = true -> slice B 0 32 = block info -> 32 <= length B ->
  exists v, am_decode_interleaved_u32 rnd m p = Ok v /\ to_be32 v = info.
Proof.
  intros H Li Hi Hs Hl. apply bytes_ok_Forall in Hi.
  destruct info as [|i0 [|i1 [|i2 [|i3 [|? ?]]]]]; try discriminate Li. clear Li.
  pose proof (Forall_inv Hi) as B0. apply Forall_inv_tail in Hi. pose proof (Forall_inv Hi) as B1. apply Forall_inv_tail in Hi.
  pose proof (Forall_inv Hi) as B2. apply Forall_inv_tail in Hi. pose proof (Forall_inv Hi) as B3. clear Hi. cbv beta in *.
  unfold am_decode_interleaved_u32. destruct (H) as (W & _). destruct (raw_nth m 8 p 0 (proj1 W) ltac:(lia)) as (raw & Er & Lr).
  rewrite Er. cbn [obind].
  assert (Ed : read_decoded_buf rnd m 4 p = Ok (bytes_of 4 (slice B 0 32))).
  { replace p with (p + 16 * 0) by lia. rewrite (read_dec m p B) by (auto; lia). reflexivity. }
  rewrite Ed. cbn [obind]. destruct (bytes_of_four (slice B 0 32)) as (w & x & y & z & E & _); [apply slice_length; lia|].
  rewrite E. unfold be32_of at 1. unfold oindex. cbn [nth_error obind].
  assert (Er' : read_raw_buf m 8 (p + 2 * 0) = Ok raw) by (rewrite Nat.mul_0_r, Nat.add_0_r; exact Er).
  assert (Q : forall k b, nth_error [i0; i1; i2; i3] k = Some b -> exists o e, nth_error raw k = Some o /\ nth_error raw (k + 4) = Some e /\ (o < 256 /\ e < 256)%N /\
    N.land o 0x55 = sp (odd_bits b) /\ N.land e 0x55 = sp (even_bits b)).
  { intros k b Hb. assert (Hk : k < 4) by (change 4 with (length [i0; i1; i2; i3]); apply nth_error_Some; rewrite Hb; discriminate).
    apply (block_halves m p B 0 [i0; i1; i2; i3] 8 k raw b H); [|rewrite block_length; cbn [length]; lia|exact Er'|cbn [length]; lia|exact Hb].
    exact Hs. }
  destruct (Q 0 i0 eq_refl) as (o0 & e0 & N0 & M0 & [A0 A0'] & P0 & R0). destruct (Q 1 i1 eq_refl) as (o1 & e1 & N1 & M1 & [A1 A1'] & P1 & R1).
  destruct (Q 2 i2 eq_refl) as (o2 & e2 & N2 & M2 & [A2 A2'] & P2 & R2). destruct (Q 3 i3 eq_refl) as (o3 & e3 & N3 & M3 & [A3 A3'] & P3 & R3). clear Q.
  cbn [Nat.add] in *. unfold be32_of, oindex. rewrite !nth_error_skipn. cbn [Nat.add]. rewrite N0, N1, N2, N3, M0, M1, M2, M3. cbn [obind].
  eexists; split; [reflexivity|]. rewrite !land_be32 by assumption. rewrite P0, P1, P2, P3, R0, R1, R2, R3.
  rewrite shl_be32 by apply sp_small. rewrite lor_be32. rewrite !join_byte' by assumption. apply to_be32_be32; assumption.
Qed.
(* the checksum the code compares the recorded header checksum with: ten bytes of the twenty *)
Definition short_sum (s : asector) : N := checksum (firstn 80 (block (as_info s) ++ block (as_label s))).
Definition sector_elems (p : nat) (s : asector) : list AmInst :=
  let ae := negb (as_header_sum s =? short_sum s)%N in
  let de := negb (as_data_sum s =? data_sum s)%N in
  [mkAi (AmHeader (id_of s) ae false) p (p + 160) (Some (id_of s)) false;
   mkAi (AmData (id_of s) ae de) (p + mfm_offset 26) (p + mfm_offset (26 + 4 + 512)) (Some (id_of s)) false].
Lemma checksum_xors l k : length l = 16 * k -> checksum l = sp (xors k l).
Proof. intros H. unfold checksum, sp. rewrite H, Nat.mul_comm, Nat.div_mul by lia. reflexivity. Qed.
Lemma elements_at rnd m p s : recorded s -> holds_at m (p + 32) (sector_bits s) -> am_elements rnd m p = Ok (sector_elems p s).
Proof.
  intros Hr H. destruct (fields s Hr) as (F1 & F2 & F3 & F4). pose proof (sector_bits_length s Hr) as LB.
  destruct (Hr) as (I1 & I2 & I3 & I4 & I5 & I6 & I7).
  unfold am_elements. unfold mfm_offset at 1. change (2 * 16) with 32.
  destruct (decode_info rnd m (p + 32) (sector_bits s) (as_info s) H eq_refl I1 F1 ltac:(lia)) as (v & Ev & Tv). rewrite Ev. cbn [obind].
  rewrite Tv. unfold as_info at 1 2, oindex. cbn [nth_error obind]. fold (id_of s).
  assert (A : forall k, p + mfm_offset (2 + k) = p + 32 + 16 * k) by (intros k; unfold mfm_offset; lia).
  unfold sector_elems.
  assert (exists h, 512 = 2 * h) as [h Hh] by (exists 256; reflexivity).
  remember 512 as K eqn:HK. clear HK.
  change (2 + 4 + (4 + 4 + 4 + 4)) with 22. change (2 + 4 + 4 + 4 + 4 + 4) with 22. change (22 + 4) with 26.
  (* header sums *)
  replace (p + mfm_offset 2) with (p + 32 + 16 * 0) by (unfold mfm_offset; lia).
  rewrite (calc_sum rnd m (p + 32) (sector_bits s) 0 5) by (try exact H; try lia; unfold mfm_offset; lia). cbn [obind].
  replace (p + mfm_offset 22) with (p + 32 + 16 * 20) by (unfold mfm_offset; lia).
  rewrite (decode_sum rnd m (p + 32) (sector_bits s) 20 H) by lia. cbn [obind]. change (8 * 20) with 160. rewrite F2.
  replace (p + mfm_offset 26) with (p + 32 + 16 * 24) by (unfold mfm_offset; lia).
  rewrite (decode_sum rnd m (p + 32) (sector_bits s) 24 H) by lia. cbn [obind]. change (8 * 24) with 192. rewrite F3.
  replace (p + mfm_offset (26 + 4)) with (p + 32 + 16 * 28) by (unfold mfm_offset; lia).
  rewrite (calc_sum rnd m (p + 32) (sector_bits s) 28 h) by (try exact H; try lia; unfold mfm_offset; lia). cbn [obind]. change (8 * 28) with 224.
  replace (16 * h) with (8 * length (as_bytes s)) by lia. rewrite F4.
  assert (LX : length (block (as_bytes s)) = 16 * h) by (rewrite block_length; lia).
  rewrite (checksum_cmp (as_data_sum s)) by (auto; apply xors_length; lia).
  assert (ES : slice (sector_bits s) (8 * 0) (16 * 5) = firstn 80 (block (as_info s) ++ block (as_label s))).
  { unfold slice, sector_bits. rewrite app_assoc. change (8 * 0) with 0. rewrite skipn_O. change (16 * 5) with 80. rewrite firstn_app.
    rewrite app_length, !block_length, I2. change (80 - (8 * length (as_info s) + 8 * 16)) with 0. rewrite firstn_O. apply app_nil_r. }
  rewrite ES.
  assert (LS : length (firstn 80 (block (as_info s) ++ block (as_label s))) = 16 * 5).
  { rewrite firstn_length, app_length, !block_length, I2. reflexivity. }
  rewrite (checksum_cmp (as_header_sum s)) by (auto; apply xors_length; lia).
  rewrite <- (checksum_xors _ 5 LS), <- (checksum_xors _ h LX). fold (short_sum s). fold (data_sum s).
  reflexivity.
Qed.
Lemma short_full s : recorded s -> plain_label s -> short_sum s = header_sum s.
Proof.
  intros (I1 & _) Hp. unfold short_sum, header_sum. rewrite Hp.
  rewrite (checksum_xors _ 5), (checksum_xors _ 10) by (rewrite ?firstn_length, ?app_length, ?block_length; reflexivity). f_equal.
Qed.
