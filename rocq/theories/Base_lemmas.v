(* Base_lemmas.v - generic lemmas about the helpers of Base.v. *)
From Verif Require Import Base.

Lemma upd_length {A} (l : list A) i x : length (upd l i x) = length l.
Proof. revert i; induction l as [|a l IH]; intros [|i]; cbn [upd length]; auto. Qed.

Lemma nth_error_upd_same {A} (l : list A) i x :
  i < length l -> nth_error (upd l i x) i = Some x.
Proof.
  revert i; induction l as [|a l IH]; intros [|i]; cbn [upd length nth_error]; intros H; try lia; auto.
  apply IH; lia.
Qed.

Lemma nth_error_upd_other {A} (l : list A) i j x :
  i <> j -> nth_error (upd l i x) j = nth_error l j.
Proof.
  revert i j; induction l as [|a l IH]; intros [|i] [|j]; cbn [upd nth_error]; intros H; try congruence; auto.
Qed.

Lemma nth_upd_same {A} (l : list A) i x d : i < length l -> nth i (upd l i x) d = x.
Proof. revert i; induction l as [|a l IH]; intros [|i]; cbn; intros H; try lia; auto. apply IH; lia. Qed.

Lemma nth_upd_other {A} (l : list A) i j x d : i <> j -> nth j (upd l i x) d = nth j l d.
Proof. revert i j; induction l as [|a l IH]; intros [|i] [|j]; cbn; intros H; try congruence; auto. Qed.

Lemma slice_length {A} (l : list A) i n : i + n <= length l -> length (slice l i n) = n.
Proof. intros H; unfold slice; rewrite firstn_length, skipn_length; lia. Qed.

Lemma nth_error_skipn {A} (l : list A) i j : nth_error (skipn i l) j = nth_error l (i + j).
Proof.
  revert l; induction i as [|i IH]; intros l; cbn [skipn plus]; auto.
  destruct l as [|a l]; cbn [nth_error]; auto. destruct j; reflexivity.
Qed.

Lemma nth_error_firstn {A} (l : list A) n j :
  nth_error (firstn n l) j = if j <? n then nth_error l j else None.
Proof.
  revert l j; induction n as [|n IH]; intros [|a l] [|j]; cbn [firstn nth_error]; auto.
  - destruct (S j <? S n); reflexivity.
  - rewrite IH. destruct (Nat.ltb_spec j n), (Nat.ltb_spec (S j) (S n)); try lia; auto.
Qed.

Lemma splice_length {A} (l : list A) i src :
  i + length src <= length l -> length (splice l i src) = length l.
Proof.
  intros H; unfold splice. rewrite !app_length, firstn_length, skipn_length. lia.
Qed.

Lemma nth_error_splice {A} (l : list A) i src j :
  i + length src <= length l ->
  nth_error (splice l i src) j =
    if (i <=? j) && (j <? i + length src) then nth_error src (j - i) else nth_error l j.
Proof.
  intros H; unfold splice.
  destruct (Nat.leb_spec i j) as [Hij|Hij]; cbn [andb].
  - rewrite nth_error_app2; rewrite firstn_length_le by lia; [|lia].
    destruct (Nat.ltb_spec j (i + length src)).
    + rewrite nth_error_app1 by lia; reflexivity.
    + rewrite nth_error_app2 by lia. rewrite nth_error_skipn. f_equal; lia.
  - rewrite nth_error_app1 by (rewrite firstn_length; lia).
    rewrite nth_error_firstn. destruct (Nat.ltb_spec j i); [reflexivity|lia].
Qed.

Lemma slice_splice_same {A} (l : list A) i src :
  i + length src <= length l -> slice (splice l i src) i (length src) = src.
Proof.
  intros H; unfold slice, splice.
  rewrite skipn_app, skipn_firstn_comm, firstn_length_le by lia.
  replace (i - i) with 0 by lia; cbn [firstn skipn app].
  rewrite firstn_app, firstn_all, Nat.sub_diag; cbn [firstn]. apply app_nil_r.
Qed.

Lemma list_eq_nth_error {A} (l1 l2 : list A) :
  (forall i, nth_error l1 i = nth_error l2 i) -> l1 = l2.
Proof.
  revert l2; induction l1 as [|a l1 IH]; intros [|b l2] H; auto.
  - specialize (H 0); discriminate.
  - specialize (H 0); discriminate.
  - f_equal; [specialize (H 0); cbn in H; congruence|].
    apply IH; intros i; exact (H (S i)).
Qed.

Lemma nth_error_seq s n i : i < n -> nth_error (seq s n) i = Some (s + i).
Proof.
  revert s i; induction n as [|n IH]; intros s [|i] H; cbn [seq nth_error]; try lia.
  - f_equal; lia.
  - rewrite IH by lia; f_equal; lia.
Qed.

Lemma nth_error_map_seq {B} (f : nat -> B) s n i :
  nth_error (map f (seq s n)) i = if i <? n then Some (f (s + i)) else None.
Proof.
  destruct (Nat.ltb_spec i n) as [H|H].
  - erewrite map_nth_error; [reflexivity|apply nth_error_seq; auto].
  - apply nth_error_None. rewrite map_length, seq_length; lia.
Qed.

Lemma Nseq_length n : length (Nseq n) = N.to_nat n.
Proof. unfold Nseq; rewrite map_length, seq_length; reflexivity. Qed.

Lemma nth_error_Nseq n i :
  nth_error (Nseq n) i = if i <? N.to_nat n then Some (N.of_nat i) else None.
Proof. unfold Nseq; rewrite nth_error_map_seq; reflexivity. Qed.

Lemma in_Nseq n x : In x (Nseq n) <-> (x < n)%N.
Proof.
  unfold Nseq. rewrite in_map_iff. split.
  - intros [y [<- Hy]]. apply in_seq in Hy. lia.
  - intros H; exists (N.to_nat x); split; [lia|]. apply in_seq; lia.
Qed.

Lemma NoDup_Nseq n : NoDup (Nseq n).
Proof.
  unfold Nseq. apply FinFun.Injective_map_NoDup; [|apply seq_NoDup].
  intros x y H; lia.
Qed.

(* flat_map of constant-length blocks *)
Lemma flat_map_const_length {A B} (f : A -> list B) k l :
  (forall x, length (f x) = k) -> length (flat_map f l) = length l * k.
Proof.
  intros H; induction l as [|a l IH]; cbn [flat_map length]; auto.
  rewrite app_length, H, IH; lia.
Qed.

Lemma nth_error_flat_map_const {A B} (f : A -> list B) k l i :
  k <> 0 -> (forall x, length (f x) = k) ->
  nth_error (flat_map f l) i =
    match nth_error l (i / k) with Some x => nth_error (f x) (i mod k) | None => None end.
Proof.
  intros Hk Hf; revert i; induction l as [|a l IH]; intros i; cbn [flat_map].
  - destruct i, (nth_error (@nil A)) eqn:E; auto; destruct (_ / k); discriminate E.
  - destruct (Nat.ltb_spec i k) as [Hi|Hi].
    + rewrite nth_error_app1 by (rewrite Hf; lia).
      rewrite Nat.div_small, Nat.mod_small by lia. reflexivity.
    + rewrite nth_error_app2 by (rewrite Hf; lia). rewrite Hf, IH.
      replace (i / k) with (S ((i - k) / k)).
      2:{ replace i with ((i - k) + 1 * k) at 2 by lia. rewrite Nat.div_add by lia. lia. }
      cbn [nth_error].
      replace ((i - k) mod k) with (i mod k); [reflexivity|].
      replace i with ((i - k) + 1 * k) at 1 by lia. rewrite Nat.mod_add by lia. reflexivity.
Qed.

Lemma forallb_nth_error {A} (f : A -> bool) l i x :
  forallb f l = true -> nth_error l i = Some x -> f x = true.
Proof. intros H Hn. rewrite forallb_forall in H. apply H. eapply nth_error_In; eauto. Qed.

Lemma firstn_skipn_app_eq {A} (l : list A) i n m :
  slice l i (n + m) = slice l i n ++ slice l (i + n) m.
Proof.
  unfold slice. rewrite <- (firstn_skipn n (firstn (n + m) (skipn i l))).
  rewrite firstn_firstn. replace (Nat.min n (n + m)) with n by lia. f_equal.
  rewrite skipn_firstn_comm. replace (n + m - n) with m by lia.
  f_equal. clear; revert l; induction i as [|i IH]; intros l; cbn [skipn plus]; auto.
  destruct l; [destruct n; reflexivity|apply IH].
Qed.

Lemma skipn_skipn' {A} (l : list A) i j : skipn i (skipn j l) = skipn (i + j) l.
Proof.
  revert l; induction j as [|j IH]; intros l; [rewrite Nat.add_0_r; reflexivity|].
  rewrite Nat.add_succ_r. destruct l; cbn [skipn]; [destruct i; reflexivity|apply IH].
Qed.

(* bits of bytes *)
Lemma byte_bits_length b : length (byte_bits b) = 8.
Proof. reflexivity. Qed.

Lemma bits_val_byte_bits b : (b < 256)%N -> bits_val (byte_bits b) = b.
Proof.
  intros H.
  assert (Hs : forallb (fun x => (bits_val (byte_bits x) =? x)%N) (Nseq 256) = true)
    by (vm_compute; reflexivity).
  rewrite forallb_forall in Hs. apply N.eqb_eq, Hs, in_Nseq; auto.
Qed.

Lemma byte_bits_bits_val l : length l = 8 -> byte_bits (bits_val l) = l.
Proof.
  intros H. do 8 (destruct l as [|? l]; [discriminate H|]). destruct l; [|discriminate H].
  repeat match goal with b : bool |- _ => destruct b end; reflexivity.
Qed.

Lemma bits_val_lt_gen l acc :
  (fold_left (fun acc (x : bool) => 2 * acc + (if x then 1 else 0)) l acc < (acc + 1) * 2 ^ N.of_nat (length l))%N.
Proof.
  revert acc; induction l as [|x l IH]; intros acc; cbn [fold_left length].
  - rewrite N.pow_0_r; lia.
  - eapply N.lt_le_trans; [apply IH|].
    rewrite Nat2N.inj_succ, N.pow_succ_r'.
    destruct x; nia.
Qed.

Lemma bits_val_lt l : (bits_val l < 2 ^ N.of_nat (length l))%N.
Proof. pose proof (bits_val_lt_gen l 0); unfold bits_val; lia. Qed.

Lemma bytes_ok_Forall l : bytes_ok l = true <-> Forall (fun b => (b < 256)%N) l.
Proof.
  unfold bytes_ok, is_byte. rewrite forallb_forall, Forall_forall.
  split; intros H x Hx; specialize (H x Hx); lia.
Qed.

Lemma bytes_ok_app l1 l2 : bytes_ok (l1 ++ l2) = bytes_ok l1 && bytes_ok l2.
Proof. apply forallb_app. Qed.
