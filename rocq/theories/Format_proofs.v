(* Format_proofs.v - integers in byte order, BIOS parameter blocks, format names. *)
From Coq Require Import String Ascii List.
From Verif Require Import Base Base_lemmas Chs_model DiskImage_model Format_model Format_spec.
Local Open Scope N_scope.

(* ---- little endian integers ---- *)
Lemma le_bytes_length : forall n v, length (le_bytes n v) = n.
Proof. induction n as [|n IH]; intros v; cbn [le_bytes length]; auto. Qed.
Lemma le_bytes_ok : forall n v, bytes_ok (le_bytes n v) = true.
Proof.
  induction n as [|n IH]; intros v; cbn [le_bytes bytes_ok forallb]; auto. unfold bytes_ok in IH. rewrite IH, andb_true_r.
  unfold is_byte. apply N.ltb_lt. apply N.mod_lt. discriminate.
Qed.
Lemma le_val_bytes : forall n v, v < 256 ^ N.of_nat n -> le_val (le_bytes n v) = v.
Proof.
  induction n as [|n IH]; intros v H; cbn [le_bytes le_val].
  - change (256 ^ N.of_nat 0) with 1 in H. lia.
  - rewrite IH.
    + symmetry. rewrite N.add_comm. apply N.div_mod. discriminate.
    + rewrite Nat2N.inj_succ, N.pow_succ_r' in H. apply N.div_lt_upper_bound; [discriminate|exact H].
Qed.
Lemma le_bytes_val : forall l, bytes_ok l = true -> le_bytes (length l) (le_val l) = l.
Proof.
  induction l as [|b l IH]; intros H; [reflexivity|]. cbn [length le_bytes le_val]. apply andb_prop in H as [Hb Hl].
  apply N.ltb_lt in Hb.
  assert (E1 : (b + 256 * le_val l) mod 256 = b) by (rewrite (N.mul_comm 256), N.mod_add by discriminate; apply N.mod_small; exact Hb).
  assert (E2 : (b + 256 * le_val l) / 256 = le_val l).
  { rewrite (N.mul_comm 256), N.div_add by discriminate. rewrite N.div_small by exact Hb. reflexivity. }
  rewrite E1, E2, IH by exact Hl. reflexivity.
Qed.
Lemma le_val_lt : forall l, bytes_ok l = true -> le_val l < 256 ^ N.of_nat (length l).
Proof.
  induction l as [|b l IH]; intros H; cbn [le_val length]; [reflexivity|]. apply andb_prop in H as [Hb Hl].
  apply N.ltb_lt in Hb. specialize (IH Hl). rewrite Nat2N.inj_succ, N.pow_succ_r'. lia.
Qed.

(* ---- slices of concatenations ---- *)
Lemma slice_app_l : forall (a b : list N) n, length a = n -> slice (a ++ b) 0 n = a.
Proof. intros a b n H. unfold slice. cbn [skipn]. rewrite <- H, firstn_app, Nat.sub_diag, firstn_all. cbn [firstn]. apply app_nil_r. Qed.
Lemma slice_app_r : forall (a b : list N) m i n, length a = m -> (m <= i)%nat -> slice (a ++ b) i n = slice b (i - m) n.
Proof.
  intros a b m i n H Hi. unfold slice. f_equal. rewrite skipn_app, H. rewrite skipn_all2 by lia. reflexivity.
Qed.
Lemma bytes_ok_slice : forall l i n, bytes_ok l = true -> bytes_ok (slice l i n) = true.
Proof.
  intros l i n H. apply bytes_ok_Forall. apply bytes_ok_Forall in H. rewrite Forall_forall in *. intros x Hx. apply H.
  unfold slice in Hx. apply (fun y => In_nth_error _ _ y) in Hx as [k Hk].
  assert (Hk2 : nth_error (skipn i l) k = Some x).
  { rewrite nth_error_firstn in Hk. destruct (k <? n)%nat; congruence. }
  rewrite nth_error_skipn in Hk2. eapply nth_error_In; eauto.
Qed.

(* ---- BPB ---- *)
Definition bpb2_ok (x : Bpb2) : Prop :=
  b2_bytes_per_sector x < 65536 /\ b2_sectors_per_cluster x < 256 /\ b2_reserved_sectors x < 65536 /\ b2_number_of_fats x < 256 /\
  b2_root_entries x < 65536 /\ b2_total_sectors x < 65536 /\ b2_media_descriptor x < 256 /\ b2_sectors_per_fat x < 65536.
Definition bpb3_ok (x : Bpb3) : Prop := b3_sectors_per_track x < 65536 /\ b3_number_of_heads x < 65536 /\ b3_hidden_sectors x < 4294967296.

Lemma bpb2_write_length : forall x, length (bpb2_write x) = 13%nat.
Proof. intros x. unfold bpb2_write. rewrite !app_length, !le_bytes_length. reflexivity. Qed.
Lemma bpb3_write_length : forall x, length (bpb3_write x) = 8%nat.
Proof. intros x. unfold bpb3_write. rewrite !app_length, !le_bytes_length. reflexivity. Qed.
Lemma bpb2_roundtrip : forall x, bpb2_ok x -> bpb2_read (bpb2_write x) = x.
Proof.
  intros [a b c d e f g h] (H1 & H2 & H3 & H4 & H5 & H6 & H7 & H8). cbn in *.
  unfold bpb2_read, bpb2_write. cbn [b2_bytes_per_sector b2_sectors_per_cluster b2_reserved_sectors b2_number_of_fats b2_root_entries b2_total_sectors b2_media_descriptor b2_sectors_per_fat].
  assert (L : forall v n, v < 256 ^ N.of_nat n -> le_val (le_bytes n v) = v) by (intros; apply le_val_bytes; auto).
  cbn [le_bytes app slice skipn firstn].
  f_equal; match goal with |- le_val [?x mod 256; _] = _ => apply (le_val_bytes 2) | |- le_val [?x mod 256] = _ => apply (le_val_bytes 1) end; assumption.
Qed.
Lemma bpb3_roundtrip : forall x, bpb3_ok x -> bpb3_read (bpb3_write x) = x.
Proof.
  intros [a b c] (H1 & H2 & H3). cbn in *. unfold bpb3_read, bpb3_write. cbn [b3_sectors_per_track b3_number_of_heads b3_hidden_sectors].
  cbn [le_bytes app slice skipn firstn]. f_equal; [apply (le_val_bytes 2)|apply (le_val_bytes 2)|apply (le_val_bytes 4)]; assumption.
Qed.
Lemma list13 : forall l : list N, length l = 13%nat -> exists a b c d e f g h i j k m n, l = [a; b; c; d; e; f; g; h; i; j; k; m; n].
Proof. intros l H. do 13 (destruct l as [|? l]; [discriminate|]). destruct l; [|discriminate]. do 13 eexists. reflexivity. Qed.
Lemma list8 : forall l : list N, length l = 8%nat -> exists a b c d e f g h, l = [a; b; c; d; e; f; g; h].
Proof. intros l H. do 8 (destruct l as [|? l]; [discriminate|]). destruct l; [|discriminate]. do 8 eexists. reflexivity. Qed.
Lemma bpb2_rewrite : forall l, length l = 13%nat -> bytes_ok l = true -> bpb2_write (bpb2_read l) = l.
Proof.
  intros l Hl Hb. unfold bpb2_write, bpb2_read. cbn [b2_bytes_per_sector b2_sectors_per_cluster b2_reserved_sectors b2_number_of_fats b2_root_entries b2_total_sectors b2_media_descriptor b2_sectors_per_fat].
  assert (P : forall i n, (i + n <= 13)%nat -> le_bytes n (le_val (slice l i n)) = slice l i n).
  { intros i n Hn. rewrite <- (slice_length l i n) at 1 by lia. apply le_bytes_val, bytes_ok_slice, Hb. }
  rewrite !P by lia. destruct (list13 l Hl) as (a & b & c & d & e & f & g & h & i & j & k & m & n & ->). reflexivity.
Qed.
Lemma bpb3_rewrite : forall l, length l = 8%nat -> bytes_ok l = true -> bpb3_write (bpb3_read l) = l.
Proof.
  intros l Hl Hb. unfold bpb3_write, bpb3_read. cbn [b3_sectors_per_track b3_number_of_heads b3_hidden_sectors].
  assert (P : forall i n, (i + n <= 8)%nat -> le_bytes n (le_val (slice l i n)) = slice l i n).
  { intros i n Hn. rewrite <- (slice_length l i n) at 1 by lia. apply le_bytes_val, bytes_ok_slice, Hb. }
  rewrite !P by lia. destruct (list8 l Hl) as (a & b & c & d & e & f & g & h & ->). reflexivity.
Qed.
Lemma bpb2_of_ok : forall f x, bpb2_of f = Ok x -> bpb2_ok x.
Proof. intros f x H. destruct f; cbn [bpb2_of] in H; try discriminate; injection H as <-; repeat split; reflexivity. Qed.
Lemma bpb3_of_ok : forall f x, bpb3_of f = Ok x -> bpb3_ok x.
Proof. intros f x H. destruct f; cbn [bpb3_of] in H; try discriminate; injection H as <-; repeat split; reflexivity. Qed.

(* reading back what was spliced in at the BPB offset *)
Lemma splice_bpb : forall buf x y, (512 <= length buf)%nat ->
  let w := splice buf BPB_OFFSET (bpb2_write x ++ bpb3_write y) in
  length w = length buf /\ slice w BPB_OFFSET 13 = bpb2_write x /\ slice w (BPB_OFFSET + 13) 8 = bpb3_write y /\
  forall i, (i < 0x0B \/ 0x20 <= i)%nat -> nth_error w i = nth_error buf i.
Proof.
  intros buf x y Hl w.
  assert (Hs : length (bpb2_write x ++ bpb3_write y) = 21%nat) by (rewrite app_length, bpb2_write_length, bpb3_write_length; reflexivity).
  assert (Hw : length w = length buf) by (unfold w; apply splice_length; rewrite Hs; unfold BPB_OFFSET; lia).
  assert (E : slice w BPB_OFFSET 21 = bpb2_write x ++ bpb3_write y).
  { unfold w. rewrite <- Hs. apply slice_splice_same. rewrite Hs. unfold BPB_OFFSET. lia. }
  split; [exact Hw|]. split; [|split].
  - assert (E2 : slice w BPB_OFFSET 13 = firstn 13 (slice w BPB_OFFSET 21)) by (unfold slice; rewrite firstn_firstn; reflexivity).
    rewrite E2, E, <- (bpb2_write_length x), firstn_app, Nat.sub_diag, firstn_all. apply app_nil_r.
  - assert (E2 : slice w (BPB_OFFSET + 13) 8 = skipn 13 (slice w BPB_OFFSET 21)).
    { unfold slice. rewrite <- (firstn_skipn_comm 8 13). rewrite skipn_skipn'. reflexivity. }
    rewrite E2, E, <- (bpb2_write_length x), skipn_app, Nat.sub_diag, skipn_all. reflexivity.
  - intros i Hi. unfold w. rewrite nth_error_splice by (rewrite Hs; unfold BPB_OFFSET; lia). rewrite Hs.
    unfold BPB_OFFSET in *. destruct ((11 <=? i)%nat && (i <? 11 + 21)%nat) eqn:Ei; [|reflexivity].
    apply andb_prop in Ei as [A B]. apply Nat.leb_le in A. apply Nat.ltb_lt in B. exfalso. clear - Hi A B. lia.
Qed.
Lemma boot_new_ok : forall buf, (512 <= length buf)%nat -> exists b, boot_new buf = Ok b /\
  bs_bpb2 b = bpb2_read (slice buf BPB_OFFSET 13) /\ bs_bpb3 b = bpb3_read (slice buf (BPB_OFFSET + 13) 8) /\
  bs_buf b = firstn 512 buf /\ length (bs_buf b) = 512%nat.
Proof.
  intros buf H. unfold boot_new. destruct (Nat.ltb_spec (length buf) 512); [lia|]. eexists. split; [reflexivity|].
  cbn [bs_bpb2 bs_bpb3 bs_buf]. repeat split; auto. rewrite firstn_length. lia.
Qed.
Lemma boot_new_inv : forall buf b, boot_new buf = Ok b -> (512 <= length buf)%nat /\
  bs_bpb2 b = bpb2_read (slice buf BPB_OFFSET 13) /\ bs_bpb3 b = bpb3_read (slice buf (BPB_OFFSET + 13) 8) /\
  bs_buf b = firstn 512 buf /\ length (bs_buf b) = 512%nat.
Proof.
  intros buf b H. destruct (Nat.le_gt_cases 512 (length buf)) as [L|L].
  - split; [exact L|]. destruct (boot_new_ok buf L) as (b' & E & H'). rewrite H in E. inversion E; subst. exact H'.
  - unfold boot_new in H. destruct (Nat.ltb_spec (length buf) 512); [discriminate|lia].
Qed.
Lemma pc_bpb : forall f, is_pc f -> exists x y, bpb2_of f = Ok x /\ bpb3_of f = Ok y /\ bpb2_is_valid x = true /\ sf_of_bpb2 x = Some f.
Proof.
  intros f [H1 H2]. destruct f; try congruence; cbn [bpb2_of bpb3_of]; do 2 eexists;
    (split; [reflexivity|]); (split; [reflexivity|]); split; vm_compute; reflexivity.
Qed.
Lemma spliced_describes : forall buf f x y, (512 <= length buf)%nat -> is_pc f -> bpb2_of f = Ok x -> bpb3_of f = Ok y ->
  describes (splice buf BPB_OFFSET (bpb2_write x ++ bpb3_write y)) f.
Proof.
  intros buf f x y Hl Hf Hx Hy. destruct (splice_bpb buf x y Hl) as (A & B & C & D).
  set (w := splice buf BPB_OFFSET (bpb2_write x ++ bpb3_write y)) in *.
  destruct (boot_new_ok w ltac:(lia)) as (b & E & E2 & E3 & _). exists b.
  rewrite B, bpb2_roundtrip in E2 by (eapply bpb2_of_ok; eauto). rewrite C, bpb3_roundtrip in E3 by (eapply bpb3_of_ok; eauto).
  destruct (pc_bpb f Hf) as (x' & y' & P1 & P2 & P3 & P4). rewrite Hx in P1. inversion P1; subst x'. rewrite Hy in P2. inversion P2; subst y'.
  unfold boot_has_valid_bpb, boot_standard_format. rewrite E2, E3. auto.
Qed.

(* ---- names ---- *)
Lemma lower_same : forall a, same_letter (lower_ascii a) a.
Proof.
  intros a. unfold lower_ascii. destruct ((65 <=? N_of_ascii a) && (N_of_ascii a <=? 90)) eqn:E; [|constructor].
  apply andb_prop in E as [A B]. apply N.leb_le in A. apply N.leb_le in B.
  rewrite <- (ascii_N_embedding a) at 2. apply SLdown. lia.
Qed.
Lemma lower_idem_same : forall a b, same_letter a b -> lower_ascii a = lower_ascii b.
Proof.
  intros a b H. destruct H as [a|n Hn|n Hn]; [reflexivity| |].
  all: unfold lower_ascii; rewrite !N_ascii_embedding by lia.
  all: assert (A : (65 <=? n) = true) by (apply N.leb_le; lia); assert (B : (n <=? 90) = true) by (apply N.leb_le; lia);
       assert (C : (n + 32 <=? 90) = false) by (apply N.leb_gt; lia); rewrite A, B, C, andb_false_r; reflexivity.
Qed.
Lemma lower_eq_same : forall a b, lower_ascii a = lower_ascii b -> same_letter a b.
Proof.
  intros a b. unfold lower_ascii.
  destruct ((65 <=? N_of_ascii a) && (N_of_ascii a <=? 90)) eqn:Ea; destruct ((65 <=? N_of_ascii b) && (N_of_ascii b <=? 90)) eqn:Eb; intros E.
  - apply andb_prop in Ea as [A1 A2]. apply andb_prop in Eb as [B1 B2]. rewrite N.leb_le in *.
    apply (f_equal N_of_ascii) in E. rewrite !N_ascii_embedding in E by lia.
    assert (Hn : N_of_ascii a = N_of_ascii b) by lia. apply (f_equal ascii_of_N) in Hn. rewrite !ascii_N_embedding in Hn. subst. constructor.
  - apply andb_prop in Ea as [A1 A2]. rewrite N.leb_le in *. subst b. rewrite <- (ascii_N_embedding a) at 1. apply SLup. lia.
  - apply andb_prop in Eb as [B1 B2]. rewrite N.leb_le in *. subst a. rewrite <- (ascii_N_embedding b) at 2. apply SLdown. lia.
  - subst. constructor.
Qed.
Lemma lower_text : forall s t, to_lowercase s = to_lowercase t <-> same_text s t.
Proof.
  induction s as [|a s IH]; intros [|b t]; cbn [to_lowercase]; split; intros H; try discriminate; try (inversion H; fail); try constructor; auto.
  - injection H as E1 E2. apply lower_eq_same, E1.
  - injection H as E1 E2. apply IH, E2.
  - inversion H; subst. f_equal; [apply lower_idem_same; auto|apply IH; auto].
Qed.
Lemma from_short : forall s f, sf_from_str s = Some f <-> strip_pc (to_lowercase s) = short_name f.
Proof.
  intros s f. unfold sf_from_str. set (k := strip_pc (to_lowercase s)).
  split.
  - intros H.
    do 10 (match type of H with context [String.eqb k ?x] => destruct (String.eqb_spec k x) as [E|E]; [injection H as <-; exact E|clear E] end).
    discriminate.
  - intros ->. destruct f; reflexivity.
Qed.
Lemma strip_pc_eq : forall s k, strip_pc s = k <->
  (s = String "p" (String "c" (String "_" k)) \/ s = k /\ forall t, s <> String "p" (String "c" (String "_" t))).
Proof.
  intros s k. destruct s as [|a [|b [|c t]]]; cbn [strip_pc].
  1-3: split; [intros <-; right; split; [reflexivity|discriminate]|intros [H|[H _]]; [discriminate|exact H]].
  destruct (Ascii.eqb_spec a "p") as [->|Ha]; [destruct (Ascii.eqb_spec b "c") as [->|Hb]; [destruct (Ascii.eqb_spec c "_") as [->|Hc]|]|]; cbn [andb].
  - split; [intros ->; left; reflexivity|intros [H|[_ H]]; [congruence|exfalso; eapply H; reflexivity]].
  - split; [intros <-; right; split; [reflexivity|intros; congruence]|intros [H|[H _]]; [congruence|exact H]].
  - split; [intros <-; right; split; [reflexivity|intros; congruence]|intros [H|[H _]]; [congruence|exact H]].
  - split; [intros <-; right; split; [reflexivity|intros; congruence]|intros [H|[H _]]; [congruence|exact H]].
Qed.
