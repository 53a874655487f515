(* Mfm_proofs.v - lemmas about the MFM codec model. *)
From Verif Require Import Base Base_lemmas BitRing_model RangeCheck_model Mfm_model Mfm_spec BitRing_proofs.

(* ---- encoder ---- *)
Lemma enc_push_spec prev acc bit :
  enc_push prev acc bit = bit :: (negb (hd prev acc) && negb bit) :: acc.
Proof. unfold enc_push. destruct bit; [rewrite andb_false_r; reflexivity|]. rewrite andb_true_r. destruct acc; reflexivity. Qed.

Lemma enc_bits_spec prev bits acc ct :
  fst (fold_left (enc_step prev EData) bits (acc, ct)) = rev (mfm (hd prev acc) bits) ++ acc.
Proof.
  revert acc ct; induction bits as [|b t IH]; intros acc ct; cbn [fold_left mfm rev app fst]; auto.
  unfold enc_step at 2. cbn [fst snd]. rewrite IH, enc_push_spec. cbn [hd]. rewrite <- !app_assoc. reflexivity.
Qed.

Lemma mfm_app prev l1 l2 : mfm prev (l1 ++ l2) = mfm prev l1 ++ mfm (last l1 prev) l2.
Proof.
  revert prev; induction l1 as [|d t IH]; intros prev; cbn [mfm app last]; auto.
  do 2 f_equal. rewrite IH. f_equal. f_equal. destruct t as [|x t]; [reflexivity|].
  clear. revert x; induction t as [|y t IH]; intros x; [reflexivity|]. exact (IH y).
Qed.

Lemma hd_rev_mfm prev bits acc :
  hd prev (rev (mfm (hd prev acc) bits) ++ acc) = last bits (hd prev acc).
Proof.
  destruct bits as [|b t] using rev_ind; [reflexivity|].
  rewrite mfm_app. cbn [mfm]. rewrite rev_app_distr. cbn [rev app hd]. rewrite last_last. reflexivity.
Qed.

Lemma last_app_ne {A} (l1 l2 : list A) d : last (l1 ++ l2) d = last l2 (last l1 d).
Proof.
  destruct l2 as [|x t] using rev_ind; [rewrite app_nil_r; reflexivity|].
  rewrite app_assoc, !last_last. reflexivity.
Qed.

Lemma enc_bytes_spec prev data acc :
  fold_left (fun acc byte => fst (fold_left (enc_step prev EData) (byte_bits byte) (acc, 0))) data acc
  = rev (mfm (hd prev acc) (bits_of data)) ++ acc.
Proof.
  revert acc; induction data as [|b t IH]; intros acc; cbn [fold_left bits_of flat_map]; auto.
  rewrite enc_bits_spec, IH, hd_rev_mfm. rewrite mfm_app, rev_app_distr, <- app_assoc. reflexivity.
Qed.

Lemma mfm_encode_spec data prev : mfm_encode data prev EData = mfm prev (bits_of data).
Proof. unfold mfm_encode. rewrite enc_bytes_spec. cbn [hd]. rewrite app_nil_r, rev_involutive. reflexivity. Qed.

Lemma mfm_length prev ds : length (mfm prev ds) = 2 * length ds.
Proof. revert prev; induction ds as [|d t IH]; intros prev; cbn [mfm length]; auto. rewrite IH; lia. Qed.
Lemma bits_of_length data : length (bits_of data) = 8 * length data.
Proof. unfold bits_of. rewrite (flat_map_const_length _ 8); [lia|reflexivity]. Qed.
Lemma bits_of_app a b : bits_of (a ++ b) = bits_of a ++ bits_of b.
Proof. apply flat_map_app. Qed.
Lemma mfm_encode_length data prev : length (mfm_encode data prev EData) = 16 * length data.
Proof. rewrite mfm_encode_spec, mfm_length, bits_of_length. lia. Qed.

Lemma mfm_nth_data prev ds k : nth (2 * k + 1) (mfm prev ds) false = nth k ds false.
Proof.
  revert prev k; induction ds as [|d t IH]; intros prev k; cbn [mfm].
  - destruct (2 * k + 1), k; reflexivity.
  - destruct k as [|k]; [reflexivity|]. replace (2 * S k + 1) with (S (S (2 * k + 1))) by lia. cbn [nth]. apply IH.
Qed.
Lemma mfm_nth_clock prev ds k : k < length ds ->
  nth (2 * k) (mfm prev ds) false = negb (nth k (prev :: ds) false) && negb (nth k ds false).
Proof.
  revert prev k; induction ds as [|d t IH]; intros prev [|k] H; cbn [length] in H; try lia; cbn [mfm].
  - reflexivity.
  - replace (2 * S k) with (S (S (2 * k))) by lia. cbn [nth]. rewrite IH by lia. reflexivity.
Qed.

Lemma even_odd_split i : exists k, i = 2 * k \/ i = 2 * k + 1.
Proof. exists (i / 2). pose proof (Nat.div_mod i 2). pose proof (Nat.mod_upper_bound i 2). lia. Qed.

Lemma nth_out {A} (l : list A) i d : length l <= i -> nth i l d = d.
Proof. apply nth_overflow. Qed.

Lemma mfm_no_adjacent prev ds i :
  nth i (prev :: mfm prev ds) false = true -> nth i (mfm prev ds) false = true -> False.
Proof.
  intros H1 H2. destruct (even_odd_split i) as [k [-> | ->]].
  - destruct (Nat.ltb_spec k (length ds)) as [Hk|Hk].
    2:{ rewrite nth_out in H2 by (rewrite mfm_length; lia). discriminate. }
    rewrite mfm_nth_clock in H2 by auto.
    destruct k as [|k]; [cbn in H1, H2; subst; discriminate|].
    replace (2 * S k) with (S (2 * k + 1)) in H1 by lia. cbn [nth] in *.
    rewrite mfm_nth_data in H1. rewrite H1 in H2. discriminate.
  - rewrite mfm_nth_data in H2.
    replace (2 * k + 1) with (S (2 * k)) in H1 by lia. cbn [nth] in H1.
    destruct (Nat.ltb_spec k (length ds)) as [Hk|Hk].
    + rewrite mfm_nth_clock in H1 by auto. rewrite H2, andb_false_r in H1. discriminate.
    + rewrite nth_out in H2 by lia. discriminate.
Qed.

Lemma mfm_zero_run prev ds i : i + 4 <= 2 * length ds ->
  exists j, i <= j < i + 4 /\ nth j (mfm prev ds) false = true.
Proof.
  intros H.
  assert (G : forall k, S k < length ds -> nth (2 * k + 1) (mfm prev ds) false = true \/
      nth (2 * k + 2) (mfm prev ds) false = true \/ nth (2 * k + 3) (mfm prev ds) false = true).
  { intros k Hk. replace (2 * k + 2) with (2 * S k) by lia. replace (2 * k + 3) with (2 * S k + 1) by lia.
    rewrite mfm_nth_clock, !mfm_nth_data by lia. cbn [nth].
    destruct (nth k ds false), (nth (S k) ds false); auto. }
  destruct (even_odd_split i) as [k [-> | ->]].
  - assert (Hk : S k < length ds) by lia. destruct (G k Hk) as [E|[E|E]]; eexists; (split; [|exact E]); lia.
  - assert (Hk : S k < length ds) by lia. destruct (G k Hk) as [E|[E|E]]; eexists; (split; [|exact E]); lia.
Qed.

(* ---- decoded reads ---- *)
Definition mfm_wf (m : Mfm) : Prop :=
  plain (m_bits m) /\
  0 < length (r_bits (m_clock m)) /\ r_wrap (m_clock m) = length (r_bits (m_clock m)) /\
  (r_bits (m_weak m) = [] \/ plain (m_weak m)).

(* value of the clock map at a (possibly wrapped) position *)
Definition clk (m : Mfm) (i : nat) : bool :=
  match r_wrapv (m_clock m) with
  | Some v => if i <? length (r_bits (m_clock m)) then nth i (r_bits (m_clock m)) false else v
  | None => circ (r_bits (m_clock m)) i
  end.
(* does a read of bit i go through the weak bit path? *)
Definition weak_at (m : Mfm) (i : nat) : bool :=
  m_weak_enabled m && negb (ring_is_empty (m_weak m)) && circ (r_bits (m_weak m)) i.

Lemma clk_get m i : mfm_wf m -> ring_get (m_clock m) i = Ok (clk m i).
Proof.
  intros (_ & H1 & H2 & _). unfold clk, ring_get, ring_mod, circ. rewrite H2.
  destruct (Nat.ltb_spec i (length (r_bits (m_clock m)))).
  - rewrite (oindex_nth _ _ false) by lia. destruct (r_wrapv (m_clock m)); auto. rewrite Nat.mod_small by lia. auto.
  - destruct (r_wrapv (m_clock m)); auto. destruct (length (r_bits (m_clock m))) eqn:E; [lia|]. cbn [obind].
    rewrite <- E in *. apply oindex_nth. apply mod_lt; lia.
Qed.

Lemma nudge_spec m i : mfm_wf m -> nudge m i = Ok (if negb (clk m i) && clk m (i + 1) then i + 1 else i).
Proof.
  intros H; unfold nudge. rewrite !clk_get by auto. cbn [obind].
  destruct (clk m i), (clk m (i + 1)); reflexivity.
Qed.

Lemma data_bit_spec rnd m c : mfm_wf m ->
  data_bit rnd m c = Ok (if weak_at m c then rnd c else circ (mfm_data m) c).
Proof.
  intros (H1 & H2 & H3 & H4); unfold data_bit, weak_at, mfm_data.
  destruct (m_weak_enabled m && negb (ring_is_empty (m_weak m))) eqn:E; cbn [andb].
  - apply andb_prop in E as [_ E]. unfold ring_is_empty in E. destruct H4 as [H4|H4]; [rewrite H4 in E; discriminate|].
    rewrite (ring_get_plain (m_weak m)) by auto. cbn [obind]. destruct (circ _ c); auto. apply ring_get_plain; auto.
  - apply ring_get_plain; auto.
Qed.

Lemma read_decoded_u8_spec rnd m i : mfm_wf m ->
  read_decoded_u8 rnd m i =
    Ok (bits_val (map (fun k => let c := (if negb (clk m i) && clk m (i + 1) then i + 1 else i) + 1 + 2 * k in
                                if weak_at m c then rnd c else circ (mfm_data m) c) (seq 0 8))).
Proof.
  intros H; unfold read_decoded_u8. rewrite nudge_spec by auto. cbn [obind].
  set (c0 := if negb (clk m i) && clk m (i + 1) then i + 1 else i).
  cbn [seq ofold]. repeat (rewrite data_bit_spec by auto; cbn [obind]).
  f_equal. rewrite <- fold_bits8 by reflexivity. cbn [map seq fold_left].
  replace (c0 + 1 + 2 * 0) with (c0 + 1) by lia.
  replace (c0 + 1 + 2 * 1) with (c0 + 1 + 2) by lia.
  replace (c0 + 1 + 2 * 2) with (c0 + 1 + 2 + 2) by lia.
  replace (c0 + 1 + 2 * 3) with (c0 + 1 + 2 + 2 + 2) by lia.
  replace (c0 + 1 + 2 * 4) with (c0 + 1 + 2 + 2 + 2 + 2) by lia.
  replace (c0 + 1 + 2 * 5) with (c0 + 1 + 2 + 2 + 2 + 2 + 2) by lia.
  replace (c0 + 1 + 2 * 6) with (c0 + 1 + 2 + 2 + 2 + 2 + 2 + 2) by lia.
  replace (c0 + 1 + 2 * 7) with (c0 + 1 + 2 + 2 + 2 + 2 + 2 + 2 + 2) by lia.
  reflexivity.
Qed.

(* No weak bit is read in the 16*n cells from i. *)
Definition no_weak (m : Mfm) (i n : nat) : Prop := forall k, k < 16 * n -> weak_at m (i + k) = false.
(* All n byte positions from i have the same alignment d with respect to the clock map. *)
Definition in_phase (m : Mfm) (i n d : nat) : Prop :=
  (d = 0 /\ forall k, k < n -> clk m (i + 16 * k) = true \/ clk m (i + 16 * k + 1) = false) \/
  (d = 1 /\ forall k, k < n -> clk m (i + 16 * k) = false /\ clk m (i + 16 * k + 1) = true).

Lemma in_phase_nudge m i n d k : in_phase m i n d -> k < n ->
  (if negb (clk m (i + 16 * k)) && clk m (i + 16 * k + 1) then i + 16 * k + 1 else i + 16 * k) = i + d + 16 * k.
Proof.
  intros [[-> H]|[-> H]] Hk; specialize (H k Hk).
  - destruct H as [-> | ->]; rewrite ?andb_false_r; cbn; lia.
  - destruct H as [-> ->]; cbn; lia.
Qed.

Lemma ofold_rev_map {A} (f : nat -> outcome A) (g : nat -> A) n s acc :
  (forall k, s <= k < s + n -> f k = Ok (g k)) ->
  ofold (fun acc k => let! b := f k in Ok (b :: acc)) (seq s n) acc = Ok (rev (map g (seq s n)) ++ acc).
Proof.
  revert s acc; induction n as [|n IH]; intros s acc H; cbn [seq ofold map rev]; auto.
  rewrite (H s) by lia. cbn [obind]. rewrite IH by (intros; apply H; lia). rewrite <- app_assoc. reflexivity.
Qed.
Lemma ofold_rev_map0 {A} (f : nat -> outcome A) (g : nat -> A) n :
  (forall k, k < n -> f k = Ok (g k)) ->
  omap (@rev A) (ofold (fun acc k => let! b := f k in Ok (b :: acc)) (seq 0 n) []) = Ok (map g (seq 0 n)).
Proof.
  intros H. rewrite (ofold_rev_map f g) by (intros; apply H; lia).
  cbn. rewrite app_nil_r, rev_involutive. reflexivity.
Qed.

Lemma map_seq_shift {A} (f : nat -> A) s n : map f (seq s n) = map (fun k => f (s + k)) (seq 0 n).
Proof.
  revert s f; induction n as [|n IH]; intros s f; cbn [seq map]; auto. f_equal; [f_equal; lia|].
  rewrite IH, (IH 1). apply map_ext; intros k; f_equal; lia.
Qed.

Lemma data_window_app l i n m : data_window l i (n + m) = data_window l i n ++ data_window l (i + 2 * n) m.
Proof.
  unfold data_window. rewrite seq_app, map_app. f_equal. cbn [plus].
  rewrite (map_seq_shift _ n). apply map_ext. intros k. f_equal. lia.
Qed.
Lemma data_window_length l i n : length (data_window l i n) = n.
Proof. unfold data_window; rewrite map_length, seq_length; reflexivity. Qed.

Lemma bytes_of_app8 n l1 l2 : length l1 = 8 -> bytes_of (S n) (l1 ++ l2) = bits_val l1 :: bytes_of n l2.
Proof. intros H; cbn [bytes_of]. rewrite firstn_app_exact, skipn_app_exact by auto. reflexivity. Qed.

Lemma bytes_of_data_window l i n :
  bytes_of n (data_window l i (8 * n)) = map (fun k => bits_val (data_window l (i + 16 * k) 8)) (seq 0 n).
Proof.
  revert i; induction n as [|n IH]; intros i; [reflexivity|].
  replace (8 * S n) with (8 + 8 * n) by lia. rewrite data_window_app.
  rewrite bytes_of_app8 by apply data_window_length. rewrite IH.
  cbn [seq map]. f_equal; [f_equal; f_equal; lia|].
  rewrite (map_seq_shift _ 1). apply map_ext. intros k. f_equal. f_equal. lia.
Qed.

Lemma read_decoded_buf_spec rnd m i n d : mfm_wf m -> in_phase m i n d -> no_weak m (i + d) n ->
  read_decoded_buf rnd m n i = Ok (bytes_of n (data_window (mfm_data m) (i + d) (8 * n))).
Proof.
  intros H Hp Hw. unfold read_decoded_buf. rewrite bytes_of_data_window.
  apply ofold_rev_map0. intros k Hk.
  rewrite read_decoded_u8_spec by auto. unfold MFM_BYTE_LEN.
  replace (i + k * 16) with (i + 16 * k) by lia. rewrite (in_phase_nudge _ _ _ _ _ Hp Hk).
  f_equal. f_equal. apply map_ext_in. intros j Hj. apply in_seq in Hj. cbn zeta.
  replace (i + d + 16 * k + 1 + 2 * j) with (i + d + (16 * k + 1 + 2 * j)) by lia.
  rewrite Hw by lia. reflexivity.
Qed.

Lemma bytes_of_bits_of data : bytes_ok data = true -> bytes_of (length data) (bits_of data) = data.
Proof.
  induction data as [|b t IH]; intros H; [reflexivity|].
  cbn in H. apply andb_prop in H as [Hb Ht]. cbn [length]. unfold bits_of; cbn [flat_map].
  rewrite bytes_of_app8 by reflexivity. fold (bits_of t). rewrite IH by auto.
  f_equal. apply bits_val_byte_bits. unfold is_byte in Hb; lia.
Qed.

(* the data bits of a region that holds an MFM encoding *)
Lemma data_window_mfm l i prev ds : window l i (2 * length ds) = mfm prev ds -> data_window l i (length ds) = ds.
Proof.
  intros H. apply list_eq_nth_error. intros k. unfold data_window.
  rewrite nth_error_map_seq. destruct (Nat.ltb_spec k (length ds)) as [Hk|Hk].
  - rewrite (nth_error_nth' ds false Hk). f_equal. cbn [plus].
    rewrite <- (mfm_nth_data prev ds k), <- H. unfold window.
    rewrite (nth_indep _ false (circ l 0)) by (rewrite map_length, seq_length; lia).
    rewrite map_nth, seq_nth by lia. f_equal; lia.
  - symmetry; apply nth_error_None; auto.
Qed.

Lemma mfm_wf_with_bits m l : mfm_wf m -> length l = mfm_len m -> mfm_wf (with_bits m (ring_with (m_bits m) l)).
Proof.
  intros (H1 & H2 & H3 & H4) E. unfold mfm_wf, mfm_len, ring_len in *. cbn.
  split; [apply plain_with; auto|auto].
Qed.

Lemma clk_with_bits m l i : length l = mfm_len m -> clk (with_bits m (ring_with (m_bits m) l)) i = clk m i.
Proof. intros E; reflexivity. Qed.
Lemma weak_at_with_bits m r i : weak_at (with_bits m r) i = weak_at m i.
Proof. reflexivity. Qed.

Lemma write_encoded_buf_spec m buf i d : mfm_wf m -> in_phase m i 1 d ->
  write_encoded_buf m buf i =
    Ok (with_bits m (ring_with (m_bits m) (circ_write (mfm_data m) (i + d) (mfm false (bits_of buf)))), 2 * length buf).
Proof.
  intros H Hp. unfold write_encoded_buf. rewrite nudge_spec by auto. cbn [obind].
  pose proof (in_phase_nudge m i 1 d 0 Hp ltac:(lia)) as E.
  replace (i + 16 * 0) with i in E by lia. replace (i + d + 16 * 0) with (i + d) in E by lia. rewrite E.
  destruct H as (H1 & _). rewrite ring_set_list by auto. cbn [obind].
  rewrite mfm_encode_spec. unfold mfm_data. f_equal. f_equal.
  rewrite mfm_length, bits_of_length.
  replace (2 * (8 * length buf) + 7) with (7 + 2 * length buf * 8) by lia.
  rewrite Nat.div_add by lia. reflexivity.
Qed.

Lemma in_phase_le m i n n' d : n' <= n -> in_phase m i n d -> in_phase m i n' d.
Proof. intros Hn [[-> H]|[-> H]]; [left|right]; split; auto; intros k Hk; apply H; lia. Qed.

Lemma mfm_write_read m buf i d :
  mfm_wf m -> bytes_ok buf = true -> 16 * length buf <= mfm_len m ->
  in_phase m i (Nat.max 1 (length buf)) d -> no_weak m (i + d) (length buf) ->
  exists m', write_encoded_buf m buf i = Ok (m', 2 * length buf) /\
    mfm_wf m' /\
    (forall rnd, read_decoded_buf rnd m' (length buf) i = Ok buf) /\
    m' = with_bits m (m_bits m') /\ mfm_len m' = mfm_len m /\
    window (mfm_data m') (i + d) (16 * length buf) = mfm_encode buf false EData /\
    (forall j, (forall k, k < 16 * length buf -> (i + d + k) mod mfm_len m <> j) ->
               nth j (mfm_data m') false = nth j (mfm_data m) false).
Proof.
  intros H Hb Hl Hp Hw.
  rewrite (write_encoded_buf_spec m buf i d H) by (eapply in_phase_le; [|exact Hp]; lia).
  eexists; split; [reflexivity|].
  set (l' := circ_write _ _ _). assert (El : length l' = mfm_len m) by apply circ_write_length.
  assert (Hwin : window l' (i + d) (16 * length buf) = mfm false (bits_of buf)).
  { subst l'. replace (16 * length buf) with (length (mfm false (bits_of buf))) by (rewrite mfm_length, bits_of_length; lia).
    apply window_circ_write. rewrite mfm_length, bits_of_length. unfold mfm_data, mfm_len, ring_len in *; lia. }
  split; [apply mfm_wf_with_bits; auto|]. split.
  { intros rnd. rewrite (read_decoded_buf_spec rnd _ i (length buf) d).
    - cbn [mfm_data m_bits with_bits ring_with r_bits].
      replace (8 * length buf) with (length (bits_of buf)) by (rewrite bits_of_length; lia).
      rewrite (data_window_mfm _ _ false (bits_of buf)); [rewrite bytes_of_bits_of by auto; reflexivity|].
      rewrite bits_of_length. replace (2 * (8 * length buf)) with (16 * length buf) by lia. exact Hwin.
    - apply mfm_wf_with_bits; auto.
    - apply (in_phase_le _ _ (Nat.max 1 (length buf))); [apply Nat.le_max_r|].
      destruct Hp as [[Hd Hp]|[Hd Hp]]; [left|right]; split; auto; intros k Hk; rewrite !clk_with_bits by auto; apply Hp; auto.
    - intros k Hk. apply Hw; auto. }
  split; [reflexivity|]. split; [exact El|]. split; [rewrite mfm_encode_spec; exact Hwin|].
  intros j Hj. cbn. subst l'. apply circ_write_outside. intros k Hk.
  rewrite mfm_length, bits_of_length in Hk. apply Hj. lia.
Qed.

(* ---- marker search ---- *)
Lemma bits_val_snoc l b : bits_val (l ++ [b]) = (2 * bits_val l + b2N b)%N.
Proof. unfold bits_val; rewrite fold_left_app; reflexivity. Qed.
Lemma bits_val_app a b : bits_val (a ++ b) = (bits_val a * 2 ^ N.of_nat (length b) + bits_val b)%N.
Proof.
  induction b as [|x b IH] using rev_ind.
  - rewrite app_nil_r. cbn [length]. change (bits_val []) with 0%N. rewrite N.pow_0_r. lia.
  - rewrite app_assoc, !bits_val_snoc, IH, app_length. cbn [length].
    rewrite Nat.add_1_r, Nat2N.inj_succ, N.pow_succ_r'. lia.
Qed.

Lemma slice_snoc l s n d : s + n < length l -> slice l s (S n) = slice l s n ++ [nth (s + n) l d : bool].
Proof.
  intros H. replace (S n) with (n + 1) by lia. rewrite firstn_skipn_app_eq. f_equal.
  clear -H. unfold slice. revert H. generalize (s + n) as i. intros i. revert l; induction i as [|i IH]; intros [|a l] H; cbn in *; try lia; auto.
  apply IH; lia.
Qed.

Lemma reg_window l s ct : 64 <= ct -> s + ct <= length l ->
  (bits_val (slice l s ct) mod 2 ^ 64)%N = win64 l (s + ct - 64).
Proof.
  intros H1 H2. replace ct with ((ct - 64) + 64) at 1 by lia. rewrite firstn_skipn_app_eq, bits_val_app.
  assert (El : length (slice l (s + (ct - 64)) 64) = 64) by (apply slice_length; lia).
  pose proof (bits_val_lt (slice l (s + (ct - 64)) 64)) as Hlt. rewrite El in *.
  change (N.of_nat 64) with 64%N in *.
  rewrite N.add_comm, N.mod_add by discriminate. rewrite N.mod_small by exact Hlt.
  unfold win64. do 2 f_equal. lia.
Qed.

Lemma reg_step l s ct : s + ct < length l ->
  ((2 * (bits_val (slice l s ct) mod 2 ^ 64) + b2N (nth (s + ct) l false)) mod 2 ^ 64)%N
  = (bits_val (slice l s (S ct)) mod 2 ^ 64)%N.
Proof.
  intros H. rewrite (slice_snoc l s ct false) by auto. rewrite bits_val_snoc.
  rewrite <- N.add_mod_idemp_l by discriminate.
  rewrite N.mul_mod_idemp_r by discriminate. rewrite N.add_mod_idemp_l by discriminate. reflexivity.
Qed.

Definition find_result (l : list bool) (mk : MarkerEncoding) (start lim : nat) (res : outcome (option (nat * N))) : Prop :=
  (exists p, first_occ l (me_mask mk) (me_bits mk) start lim p /\
     res = (if p =? 0 then Panic else Ok (Some (p, N.land (win64 l p) 0xFFFF)))) \/
  (no_occ l (me_mask mk) (me_bits mk) start lim /\ res = Ok None).

Lemma find_marker_loop_spec r mk start lim fuel ct :
  plain r -> me_len mk = 64 -> start + ct + fuel = lim -> lim <= length (r_bits r) ->
  no_occ (r_bits r) (me_mask mk) (me_bits mk) start (start + ct) ->
  find_result (r_bits r) mk start lim
    (find_marker_loop r mk fuel (start + ct) (bits_val (slice (r_bits r) start ct) mod 2 ^ 64) ct).
Proof.
  intros Hp Hm. revert ct; induction fuel as [|f IH]; intros ct Hlim Hle Hno; cbn [find_marker_loop].
  - right. split; auto. replace lim with (start + ct) by lia. auto.
  - rewrite ring_get_plain by auto. cbn [obind].
    assert (Ec : circ (r_bits r) (start + ct) = nth (start + ct) (r_bits r) false).
    { unfold circ. rewrite Nat.mod_small by lia. reflexivity. }
    rewrite Ec. rewrite reg_step by lia.
    destruct ((64 <=? S ct) && (N.land (bits_val (slice (r_bits r) start (S ct)) mod 2 ^ 64) (me_mask mk) =? me_bits mk)%N) eqn:E.
    + apply andb_prop in E as [E1 E2]. apply Nat.leb_le in E1. apply N.eqb_eq in E2.
      rewrite reg_window in * by lia. left. exists (start + S ct - 64). split.
      * split; [lia|]. split; [lia|]. split; [split; [lia|exact E2]|].
        intros q Hq. apply Hno; lia.
      * rewrite Hm. destruct (Nat.ltb_spec (start + ct) 64), (Nat.eqb_spec (start + S ct - 64) 0); try lia; auto.
        do 3 f_equal. lia.
    + replace (S (start + ct)) with (start + S ct) by lia. apply IH; try lia.
      intros q Hq1 Hq2 [Hq3 Hq4].
      destruct (Nat.ltb_spec (q + 64) (start + S ct)) as [Hlt|Hge].
      * apply (Hno q); [lia|lia|split; auto].
      * assert (q = start + S ct - 64) by lia. subst q.
        rewrite reg_window in E by lia. rewrite Hq4, N.eqb_refl, andb_true_r in E.
        apply Nat.leb_gt in E. lia.
Qed.

Definition search_lim (m : Mfm) (limit : option nat) : nat :=
  match limit with Some l => Nat.min l (mfm_len m) | None => mfm_len m end.

Lemma find_marker_spec m mk start limit : plain (m_bits m) -> me_len mk = 64 ->
  find_result (mfm_data m) mk start (search_lim m limit) (find_marker m mk start limit).
Proof.
  intros Hp Hm. unfold find_marker.
  assert (Ee : ring_is_empty (m_bits m) = false).
  { destruct Hp as (_ & _ & H). unfold ring_is_empty. destruct (r_bits (m_bits m)); [cbn in H; lia|reflexivity]. }
  rewrite Ee. fold (search_lim m limit). set (lim := search_lim m limit).
  assert (Hlim : lim <= length (r_bits (m_bits m))).
  { subst lim; unfold search_lim, mfm_len, ring_len. destruct limit; lia. }
  destruct (Nat.leb_spec start lim) as [Hs|Hs].
  - pose proof (find_marker_loop_spec (m_bits m) mk start lim (lim - start) 0 Hp Hm) as G.
    rewrite Nat.add_0_r in G. change (slice (r_bits (m_bits m)) start 0) with (@nil bool) in G.
    apply G; try lia. intros q H1 H2. lia.
  - replace (lim - start) with 0 by lia. cbn [find_marker_loop]. right. split; auto.
    intros q H1 H2. lia.
Qed.

(* uniqueness of the first occurrence, for using the specification *)
Lemma first_occ_unique l mask pat s lim p q :
  first_occ l mask pat s lim p -> first_occ l mask pat s lim q -> p = q.
Proof.
  intros (A1 & A2 & A3 & A4) (B1 & B2 & B3 & B4).
  destruct (Nat.lt_trichotomy p q) as [H|[H|H]]; auto; exfalso.
  - apply (B4 p); auto.
  - apply (A4 q); auto.
Qed.

(* ---- raw access ---- *)
Lemma read_raw_u8_spec m i : plain (m_bits m) -> read_raw_u8 m i = Ok (bits_val (window (mfm_data m) i 8)).
Proof.
  intros H. unfold read_raw_u8. cbn [seq ofold]. repeat (rewrite ring_get_plain by auto; cbn [obind]).
  f_equal. rewrite <- fold_bits8 by apply window_length. reflexivity.
Qed.
Lemma bytes_of_window l i n : bytes_of n (window l i (8 * n)) = map (fun k => bits_val (window l (i + k * 8) 8)) (seq 0 n).
Proof.
  revert i; induction n as [|n IH]; intros i; [reflexivity|].
  replace (8 * S n) with (8 + 8 * n) by lia. rewrite window_app, bytes_of_app8 by apply window_length.
  rewrite IH. cbn [seq map]. f_equal; [do 2 f_equal; lia|].
  rewrite (map_seq_shift _ 1). apply map_ext. intros k. do 2 f_equal. lia.
Qed.
Lemma read_raw_buf_spec m n i : plain (m_bits m) ->
  read_raw_buf m n i = Ok (bytes_of n (window (mfm_data m) i (8 * n))).
Proof.
  intros H. unfold read_raw_buf. rewrite bytes_of_window. apply ofold_rev_map0. intros k _. apply read_raw_u8_spec; auto.
Qed.
Lemma write_raw_buf_spec m buf i : plain (m_bits m) ->
  write_raw_buf m buf i = Ok (with_bits m (ring_with (m_bits m) (circ_write (mfm_data m) i (bits_of buf)))).
Proof. intros H. unfold write_raw_buf. rewrite ring_set_list2 by auto. reflexivity. Qed.
Lemma write_raw_u8_spec m i b : plain (m_bits m) ->
  write_raw_u8 m i b = Ok (with_bits m (ring_with (m_bits m) (circ_write (mfm_data m) i (byte_bits b)))).
Proof.
  intros H. unfold write_raw_u8.
  assert (E : ofold (fun r '(j, bit) => ring_set r (i + j) bit) (combine (seq 0 8) (byte_bits b)) (m_bits m)
            = Ok (ring_with (m_bits m) (circ_write (r_bits (m_bits m)) i (byte_bits b)))).
  { assert (G : forall bs r s, plain r -> ofold (fun r '(j, bit) => ring_set r (i + j) bit) (combine (seq s (length bs)) bs) r
              = Ok (ring_with r (circ_write (r_bits r) (i + s) bs))).
    { clear. induction bs as [|x bs IH]; intros r s Hp; cbn [length seq combine ofold circ_write].
      - destruct r; reflexivity.
      - rewrite ring_set_plain by auto. cbn [obind]. rewrite IH by (apply plain_with; [auto|apply upd_length]).
        cbn [r_bits ring_with]. unfold ring_with; cbn. do 3 f_equal. lia. }
    pose proof (G (byte_bits b) (m_bits m) 0 H) as G'. rewrite Nat.add_0_r in G'. exact G'. }
  rewrite E. reflexivity.
Qed.

Lemma plain_write_raw m l : plain (m_bits m) -> length l = mfm_len m ->
  plain (m_bits (with_bits m (ring_with (m_bits m) l))).
Proof. intros H E; cbn. apply plain_with; auto. Qed.

Lemma raw_write_read m buf i : plain (m_bits m) -> bytes_ok buf = true -> 8 * length buf <= mfm_len m ->
  exists m', write_raw_buf m buf i = Ok m' /\ m' = with_bits m (m_bits m') /\ plain (m_bits m') /\ mfm_len m' = mfm_len m /\
    read_raw_buf m' (length buf) i = Ok buf /\
    (forall j, (forall k, k < 8 * length buf -> (i + k) mod mfm_len m <> j) -> nth j (mfm_data m') false = nth j (mfm_data m) false).
Proof.
  intros H Hb Hl. rewrite write_raw_buf_spec by auto. eexists; split; [reflexivity|]. split; [reflexivity|].
  set (l' := circ_write _ _ _). assert (El : length l' = mfm_len m) by apply circ_write_length.
  split; [apply plain_write_raw; auto|]. split; [exact El|]. split.
  - rewrite read_raw_buf_spec by (apply plain_write_raw; auto).
    assert (Ew : window l' i (8 * length buf) = bits_of buf).
    { rewrite <- bits_of_length. apply window_circ_write. rewrite bits_of_length. exact Hl. }
    cbn [mfm_data m_bits with_bits ring_with r_bits].
    rewrite Ew, bytes_of_bits_of by auto. reflexivity.
  - intros j Hj. cbn. apply circ_write_outside. intros k Hk. rewrite bits_of_length in Hk. apply Hj; auto.
Qed.

(* ---- 32-bit decoded reads ---- *)
Lemma ofold_bits_u32 rnd m n c acc : mfm_wf m -> (forall k, k < n -> weak_at m (c + 2 * k) = false) ->
  (acc < 2 ^ N.of_nat (32 - n))%N -> n <= 32 ->
  ofold (fun '(dw, c) (_ : nat) => let! b := data_bit rnd m c in Ok (as_u32 (2 * dw + b2N b), c + 2)) (seq 0 n) (acc, c)
  = Ok ((acc * 2 ^ N.of_nat n + bits_val (map (fun k => circ (mfm_data m) (c + 2 * k)) (seq 0 n)))%N, c + 2 * n).
Proof.
  intros H. assert (G : forall n s c acc, (forall k, k < n -> weak_at m (c + 2 * k) = false) ->
     (acc < 2 ^ N.of_nat (32 - n))%N -> n <= 32 ->
     ofold (fun '(dw, c) (_ : nat) => let! b := data_bit rnd m c in Ok (as_u32 (2 * dw + b2N b), c + 2)) (seq s n) (acc, c)
     = Ok ((acc * 2 ^ N.of_nat n + bits_val (map (fun k => circ (mfm_data m) (c + 2 * k)) (seq 0 n)))%N, c + 2 * n)).
  { clear n c acc. induction n as [|n IH]; intros s c acc Hw Ha Hn; cbn [seq ofold].
    - cbn. f_equal. f_equal; lia.
    - rewrite data_bit_spec by auto. replace c with (c + 2 * 0) at 1 by lia. rewrite Hw by lia. cbn [obind].
      assert (Hb : (b2N (circ (mfm_data m) c) < 2)%N) by (destruct (circ (mfm_data m) c); cbn; lia).
      assert (E32 : (2 * acc + b2N (circ (mfm_data m) c) < 2 ^ N.of_nat (32 - n))%N).
      { replace (32 - n) with (S (32 - S n)) by lia. rewrite Nat2N.inj_succ, N.pow_succ_r'. lia. }
      rewrite IH; [| |unfold as_u32; rewrite N.mod_small; auto|lia].
      + f_equal. f_equal; [|lia]. unfold as_u32. rewrite N.mod_small.
        * cbn [map seq]. replace (c + 2 * 0) with c by lia.
          change (circ (mfm_data m) c :: map (fun k => circ (mfm_data m) (c + 2 * k)) (seq 1 n))
            with ([circ (mfm_data m) c] ++ map (fun k => circ (mfm_data m) (c + 2 * k)) (seq 1 n)).
          rewrite bits_val_app, map_length, seq_length. rewrite (map_seq_shift _ 1).
          rewrite (map_ext (fun k => circ (mfm_data m) (c + 2 * (1 + k))) (fun k => circ (mfm_data m) (c + 2 + 2 * k)))
            by (intros k; f_equal; lia).
          change (bits_val [circ (mfm_data m) c]) with (2 * 0 + b2N (circ (mfm_data m) c))%N.
          rewrite Nat2N.inj_succ, N.pow_succ_r'. generalize (2 ^ N.of_nat n)%N as P. intros P. nia.
        * eapply N.lt_le_trans; [exact E32|]. change 4294967296%N with (2 ^ 32)%N. apply N.pow_le_mono_r; lia.
      + intros k Hk. replace (c + 2 + 2 * k) with (c + 2 * S k) by lia. apply Hw; lia.
      + eapply N.lt_le_trans; [exact E32|]. change 4294967296%N with (2 ^ 32)%N. apply N.pow_le_mono_r; lia. }
  intros Hw Ha Hn. apply G; auto.
Qed.

Lemma read_decoded_u32_be_spec rnd m i : mfm_wf m ->
  let c := if clk m i then i else i + 1 in
  (forall k, k < 64 -> weak_at m (c + k) = false) ->
  read_decoded_u32_be rnd m i = Ok (bits_val (data_window (mfm_data m) c 32)).
Proof.
  intros H c Hw. unfold read_decoded_u32_be. rewrite clk_get by auto. cbn [obind]. fold c.
  rewrite (ofold_bits_u32 rnd m 32 (c + 1) 0 H); [|intros k Hk; replace (c + 1 + 2 * k) with (c + (1 + 2 * k)) by lia; apply Hw; lia|lia|lia].
  cbn [obind]. rewrite N.mul_0_l, N.add_0_l. reflexivity.
Qed.
