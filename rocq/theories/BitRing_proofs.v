(* BitRing_proofs.v - lemmas about the bit ring. *)
From Verif Require Import Base Base_lemmas BitRing_model Mfm_spec.

Lemma oindex_nth {A} (l : list A) i d : i < length l -> oindex l i = Ok (nth i l d).
Proof. intros H; unfold oindex. rewrite (nth_error_nth' l d H). reflexivity. Qed.

Definition ring_wf (r : BitRing) : Prop := 0 < r_wrap r <= length (r_bits r) /\ r_cursor r < r_wrap r.

(* the addressed part of the ring *)
Definition ring_abs (r : BitRing) : aring := mkAring (firstn (r_wrap r) (r_bits r)) (r_cursor r) (r_wrapv r).

Lemma nth_firstn {A} (l : list A) n i d : i < n -> nth i (firstn n l) d = nth i l d.
Proof. revert l i; induction n as [|n IH]; intros [|a l] [|i] H; cbn; try lia; auto. apply IH; lia. Qed.

Lemma mod_lt i w : 0 < w -> i mod w < w.
Proof. intros; apply Nat.mod_upper_bound; lia. Qed.

Lemma ring_mod_ok r i : 0 < r_wrap r -> ring_mod r i = Ok (i mod r_wrap r).
Proof. unfold ring_mod; destruct (r_wrap r); [lia|reflexivity]. Qed.

Lemma firstn_wrap_length r : ring_wf r -> length (firstn (r_wrap r) (r_bits r)) = r_wrap r.
Proof. intros [H _]; rewrite firstn_length; lia. Qed.

Lemma circ_firstn r i : ring_wf r ->
  circ (firstn (r_wrap r) (r_bits r)) i = nth (i mod r_wrap r) (r_bits r) false.
Proof.
  intros H; unfold circ. rewrite firstn_wrap_length by auto.
  apply nth_firstn, mod_lt. unfold ring_wf in H; lia.
Qed.

Lemma ring_get_spec r i : ring_wf r ->
  ring_get r i = Ok (match r_wrapv r with
                     | Some v => if i <? r_wrap r then nth i (r_bits r) false else v
                     | None => nth (i mod r_wrap r) (r_bits r) false end).
Proof.
  intros [[H1 H2] _]; unfold ring_get.
  destruct (Nat.ltb_spec i (r_wrap r)) as [Hi|Hi].
  - rewrite (oindex_nth _ _ false) by lia. rewrite Nat.mod_small by lia. destruct (r_wrapv r); reflexivity.
  - destruct (r_wrapv r); [reflexivity|]. rewrite ring_mod_ok by lia; cbn [obind].
    apply oindex_nth. pose proof (mod_lt i (r_wrap r)); lia.
Qed.

Lemma ring_set_spec r i b : ring_wf r ->
  ring_set r i b = Ok (mkRing (upd (r_bits r) (i mod r_wrap r) b) (r_wrap r) (r_cursor r) (r_wrapv r)).
Proof.
  intros [[H1 H2] _]; unfold ring_set.
  assert (E : (if i <? r_wrap r then Ok i else ring_mod r i) = Ok (i mod r_wrap r)).
  { destruct (Nat.ltb_spec i (r_wrap r)); [rewrite Nat.mod_small by lia; reflexivity|apply ring_mod_ok; lia]. }
  rewrite E; cbn [obind]. unfold bits_set.
  pose proof (mod_lt i (r_wrap r)). destruct (Nat.ltb_spec (i mod r_wrap r) (length (r_bits r))); [reflexivity|lia].
Qed.

Lemma ring_next_spec r : ring_wf r ->
  ring_next r = Ok (nth (r_cursor r) (r_bits r) false,
                    mkRing (r_bits r) (r_wrap r) ((r_cursor r + 1) mod r_wrap r) (r_wrapv r)).
Proof.
  intros [[H1 H2] H3]; unfold ring_next. rewrite (oindex_nth _ _ false) by lia. cbn [obind].
  rewrite ring_mod_ok by lia. reflexivity.
Qed.

Definition at_cursor (r : BitRing) (c : nat) : BitRing := mkRing (r_bits r) (r_wrap r) (c mod r_wrap r) (r_wrapv r).

Lemma at_cursor_wf r c : ring_wf r -> ring_wf (at_cursor r c).
Proof. intros [H1 H2]; split; cbn; [auto|apply mod_lt; lia]. Qed.

Lemma ring_next_at r c : ring_wf r ->
  ring_next (at_cursor r c) = Ok (nth (c mod r_wrap r) (r_bits r) false, at_cursor r (S c)).
Proof.
  intros H. rewrite ring_next_spec by (apply at_cursor_wf; auto). cbn.
  rewrite Nat.add_mod_idemp_l by (unfold ring_wf in H; lia). unfold at_cursor. do 3 f_equal. f_equal; lia.
Qed.

(* folding bits into an accumulator of k bits *)
Lemma fold_bits_as_u8 l acc :
  (acc * 2 ^ N.of_nat (length l) + bits_val l < 256)%N ->
  fold_left (fun byte (b : bool) => as_u8 (2 * byte + b2N b)) l acc = (acc * 2 ^ N.of_nat (length l) + bits_val l)%N.
Proof.
  revert acc; induction l as [|b l IH] using rev_ind; intros acc H; cbn [fold_left].
  - unfold bits_val; cbn. lia.
  - rewrite fold_left_app; cbn [fold_left].
    rewrite app_length in *; cbn [length] in *.
    assert (E : bits_val (l ++ [b]) = (2 * bits_val l + b2N b)%N).
    { unfold bits_val; rewrite fold_left_app; cbn [fold_left]. reflexivity. }
    rewrite E in *. rewrite Nat.add_1_r, Nat2N.inj_succ, N.pow_succ_r' in *.
    assert (b2N b < 2)%N by (destruct b; cbn; lia).
    rewrite IH by nia. unfold as_u8. rewrite N.mod_small by nia. nia.
Qed.

Lemma fold_bits8 l : length l = 8 ->
  fold_left (fun byte (b : bool) => as_u8 (2 * byte + b2N b)) l 0%N = bits_val l.
Proof.
  intros H. rewrite fold_bits_as_u8; [lia|]. rewrite H. pose proof (bits_val_lt l). rewrite H in *.
  change (2 ^ N.of_nat 8)%N with 256%N in *. lia.
Qed.

(* An ofold whose step never fails is a fold_left. *)
Lemma ofold_ok {S A} (f : S -> A -> outcome S) (g : S -> A -> S) l s (P : S -> Prop) :
  P s -> (forall s x, P s -> In x l -> f s x = Ok (g s x) /\ P (g s x)) ->
  ofold f l s = Ok (fold_left g l s).
Proof.
  revert s; induction l as [|x l IH]; intros s Hs H; cbn [ofold fold_left]; auto.
  destruct (H s x Hs (or_introl eq_refl)) as [-> HP]. cbn [obind].
  apply IH; auto. intros s' y Hs' Hy; apply H; auto. right; auto.
Qed.

Lemma ring_read_byte_at r c : ring_wf r ->
  ring_read_byte (at_cursor r c) =
    Ok (bits_val (map (fun i => nth (i mod r_wrap r) (r_bits r) false) (seq c 8)), at_cursor r (c + 8)).
Proof.
  intros H. unfold ring_read_byte. cbn [seq ofold].
  repeat (rewrite ring_next_at by auto; cbn [obind]).
  f_equal. f_equal.
  - rewrite <- fold_bits8 by reflexivity. cbn [map seq fold_left]. reflexivity.
  - f_equal. lia.
Qed.

Lemma window_firstn r i n : ring_wf r ->
  window (firstn (r_wrap r) (r_bits r)) i n = map (fun i => nth (i mod r_wrap r) (r_bits r) false) (seq i n).
Proof. intros H; unfold window. apply map_ext. intros a; apply circ_firstn; auto. Qed.

Lemma window_app l i n m : window l i (n + m) = window l i n ++ window l (i + n) m.
Proof. unfold window. rewrite seq_app, map_app. reflexivity. Qed.
Lemma window_length l i n : length (window l i n) = n.
Proof. unfold window; rewrite map_length, seq_length; reflexivity. Qed.

Lemma firstn_app_exact {A} (l1 l2 : list A) n : length l1 = n -> firstn n (l1 ++ l2) = l1.
Proof. intros <-. rewrite firstn_app, firstn_all, Nat.sub_diag; cbn [firstn]. apply app_nil_r. Qed.
Lemma skipn_app_exact {A} (l1 l2 : list A) n : length l1 = n -> skipn n (l1 ++ l2) = l2.
Proof. intros <-. rewrite skipn_app, skipn_all, Nat.sub_diag; reflexivity. Qed.

Lemma ring_read_at r n c : ring_wf r ->
  ring_read n (at_cursor r c) =
    Ok (bytes_of n (window (firstn (r_wrap r) (r_bits r)) c (8 * n)), at_cursor r (c + 8 * n)).
Proof.
  intros H; revert c; induction n as [|n IH]; intros c; cbn [ring_read].
  - cbn [bytes_of]. rewrite Nat.mul_0_r, Nat.add_0_r. reflexivity.
  - rewrite ring_read_byte_at by auto; cbn [obind]. rewrite IH; cbn [obind].
    replace (8 * S n) with (8 + 8 * n) by lia. rewrite window_app. cbn [bytes_of].
    rewrite firstn_app_exact, skipn_app_exact by apply window_length.
    rewrite (window_firstn _ c) by auto. replace (c + (8 + 8 * n)) with (c + 8 + 8 * n) by lia. reflexivity.
Qed.

Lemma at_cursor_self r : ring_wf r -> at_cursor r (r_cursor r) = r.
Proof. intros [H1 H2]; destruct r as [bits w c v]; unfold at_cursor; cbn in *. rewrite Nat.mod_small by lia; auto. Qed.

Lemma firstn_upd {A} (l : list A) n i x : firstn n (upd l i x) = upd (firstn n l) i x.
Proof. revert l i; induction n as [|n IH]; intros [|a l] [|i]; cbn [firstn upd]; auto. f_equal; auto. Qed.
Lemma skipn_upd {A} (l : list A) n i x : i < n -> skipn n (upd l i x) = skipn n l.
Proof. revert l i; induction n as [|n IH]; intros [|a l] [|i] H; cbn [skipn upd]; auto; try lia. apply IH; lia. Qed.

(* The concrete operation, with its output. *)
Definition ring_step (r : BitRing) (o : ring_op) : outcome (BitRing * ring_out) :=
  match o with
  | OpSet i b => let! r' := ring_set r i b in Ok (r', OutUnit)
  | OpGet i => let! b := ring_get r i in Ok (r, OutBit b)
  | OpNext => let! (b, r') := ring_next r in Ok (r', OutBit b)
  | OpRead n => let! (l, r') := ring_read n r in Ok (r', OutBytes l)
  end.
Fixpoint ring_run (r : BitRing) (ops : list ring_op) : outcome (BitRing * list ring_out) :=
  match ops with
  | [] => Ok (r, [])
  | o :: t => let! (r1, x) := ring_step r o in let! (r2, xs) := ring_run r1 t in Ok (r2, x :: xs)
  end.

Lemma ring_step_refines r o : ring_wf r ->
  exists r' x, ring_step r o = Ok (r', x) /\ ring_wf r' /\
    aring_step (ring_abs r) o = (ring_abs r', x) /\
    r_wrap r' = r_wrap r /\ skipn (r_wrap r) (r_bits r') = skipn (r_wrap r) (r_bits r).
Proof.
  intros H. pose proof H as [[H1 H2] H3]. destruct o as [i b|i| |n]; cbn [ring_step aring_step].
  - rewrite ring_set_spec by auto. cbn [obind]. eexists _, _; split; [reflexivity|].
    pose proof (mod_lt i (r_wrap r)).
    split; [split; cbn; rewrite ?upd_length; lia|].
    unfold ring_abs; cbn [r_bits r_wrap r_cursor r_wrapv a_bits a_pos a_over].
    rewrite firstn_wrap_length by auto. rewrite firstn_upd. split; [reflexivity|].
    split; [reflexivity|]. apply skipn_upd; lia.
  - rewrite ring_get_spec by auto. cbn [obind]. eexists _, _; split; [reflexivity|]. split; [auto|].
    split; [|auto]. f_equal. f_equal. cbn [ring_abs a_over a_bits].
    rewrite !circ_firstn, firstn_wrap_length by auto.
    destruct (r_wrapv r); auto. destruct (Nat.ltb_spec i (r_wrap r)); auto.
    rewrite Nat.mod_small by lia; auto.
  - rewrite ring_next_spec by auto. cbn [obind]. eexists _, _; split; [reflexivity|].
    split; [split; cbn; [lia|apply mod_lt; lia]|].
    unfold ring_abs; cbn [r_bits r_wrap r_cursor r_wrapv a_bits a_pos a_over].
    rewrite circ_firstn, firstn_wrap_length by auto. rewrite (Nat.mod_small (r_cursor r)) by lia. auto.
  - assert (E : ring_read n r = ring_read n (at_cursor r (r_cursor r))) by (rewrite at_cursor_self; auto).
    rewrite E, ring_read_at by auto. cbn [obind].
    eexists _, _; split; [reflexivity|]. split; [apply at_cursor_wf; auto|].
    unfold ring_abs; cbn [r_bits r_wrap r_cursor r_wrapv a_bits a_pos a_over at_cursor].
    rewrite firstn_wrap_length by auto. auto.
Qed.

Lemma ring_run_refines r ops : ring_wf r ->
  exists r', ring_run r ops = Ok (r', snd (aring_run (ring_abs r) ops)) /\ ring_wf r' /\
    fst (aring_run (ring_abs r) ops) = ring_abs r' /\
    r_wrap r' = r_wrap r /\ skipn (r_wrap r) (r_bits r') = skipn (r_wrap r) (r_bits r).
Proof.
  revert r; induction ops as [|o ops IH]; intros r H; cbn [ring_run aring_run].
  - exists r; auto.
  - destruct (ring_step_refines r o H) as (r1 & x & E1 & W1 & A1 & Wr & T1).
    rewrite E1, A1; cbn [obind]. destruct (IH r1 W1) as (r2 & E2 & W2 & A2 & Wr2 & T2).
    rewrite E2; cbn [obind]. destruct (aring_run (ring_abs r1) ops) as [a xs]; cbn [fst snd] in *.
    exists r2. repeat split; auto; try apply W2; try congruence.
Qed.

(* Plain rings: the whole list is addressed, no override (MfmCodec.bits, weak_mask). *)
Definition plain (r : BitRing) : Prop :=
  r_wrap r = length (r_bits r) /\ r_wrapv r = None /\ 0 < length (r_bits r).
Lemma plain_from l : l <> [] -> plain (ring_from l).
Proof. intros H; destruct l; [congruence|]. unfold plain, ring_from; cbn. repeat split; lia. Qed.

Lemma ring_get_plain r i : plain r -> ring_get r i = Ok (circ (r_bits r) i).
Proof.
  intros (H1 & H2 & H3); unfold ring_get, circ. rewrite H1, H2.
  destruct (Nat.ltb_spec i (length (r_bits r))) as [Hi|Hi].
  - rewrite (oindex_nth _ _ false) by lia. rewrite Nat.mod_small by lia. reflexivity.
  - rewrite ring_mod_ok by lia. rewrite H1. cbn [obind]. apply oindex_nth, mod_lt; lia.
Qed.
Definition ring_with (r : BitRing) (l : list bool) : BitRing := mkRing l (r_wrap r) (r_cursor r) (r_wrapv r).
Lemma ring_set_plain r i b : plain r ->
  ring_set r i b = Ok (ring_with r (upd (r_bits r) (i mod length (r_bits r)) b)).
Proof.
  intros (H1 & H2 & H3); unfold ring_set. rewrite H1.
  assert (E : (if i <? length (r_bits r) then Ok i else ring_mod r i) = Ok (i mod length (r_bits r))).
  { destruct (Nat.ltb_spec i (length (r_bits r))); [rewrite Nat.mod_small by lia; reflexivity|].
    rewrite <- H1. apply ring_mod_ok; lia. }
  rewrite E; cbn [obind]. unfold bits_set.
  pose proof (mod_lt i (length (r_bits r))).
  destruct (Nat.ltb_spec (i mod length (r_bits r)) (length (r_bits r))); [|lia].
  cbn [obind]. unfold ring_with. rewrite H1. reflexivity.
Qed.
Lemma plain_with r l : plain r -> length l = length (r_bits r) -> plain (ring_with r l).
Proof. intros (H1 & H2 & H3) E; unfold plain, ring_with; cbn. rewrite E. auto. Qed.

Lemma circ_write_length l off src : length (circ_write l off src) = length l.
Proof. revert l off; induction src as [|b t IH]; intros l off; cbn [circ_write]; auto. rewrite IH, upd_length; auto. Qed.

Lemma circ_write_app l off s1 s2 : circ_write l off (s1 ++ s2) = circ_write (circ_write l off s1) (off + length s1) s2.
Proof.
  revert l off; induction s1 as [|b t IH]; intros l off; cbn [circ_write app length].
  - f_equal; lia.
  - rewrite IH. f_equal. lia.
Qed.

Lemma circ_write_outside l off src j :
  (forall k, k < length src -> (off + k) mod length l <> j) ->
  nth j (circ_write l off src) false = nth j l false.
Proof.
  revert l off; induction src as [|b t IH]; intros l off H; cbn [circ_write]; auto.
  rewrite IH.
  - apply nth_upd_other. specialize (H 0). cbn [length] in H. rewrite Nat.add_0_r in H. apply H; lia.
  - intros k Hk. rewrite upd_length. specialize (H (S k)). cbn [length] in H.
    replace (S off + k) with (off + S k) by lia. apply H; lia.
Qed.

Lemma mod_inj_window L off j k : 0 < L -> j < L -> k < L -> (off + j) mod L = (off + k) mod L -> j = k.
Proof.
  intros HL Hj Hk E.
  rewrite (Nat.add_mod off j), (Nat.add_mod off k) in E by lia.
  rewrite (Nat.mod_small j), (Nat.mod_small k) in E by lia.
  pose proof (mod_lt off L HL) as Ho. revert E Ho. generalize (off mod L) as o; intros o E Ho.
  destruct (Nat.ltb_spec (o + j) L), (Nat.ltb_spec (o + k) L).
  - rewrite !Nat.mod_small in E by lia. lia.
  - rewrite (Nat.mod_small (o + j)) in E by lia.
    replace (o + k) with (o + k - L + 1 * L) in E by lia.
    rewrite Nat.mod_add, Nat.mod_small in E by lia. lia.
  - rewrite (Nat.mod_small (o + k)) in E by lia.
    replace (o + j) with (o + j - L + 1 * L) in E by lia.
    rewrite Nat.mod_add, Nat.mod_small in E by lia. lia.
  - replace (o + j) with (o + j - L + 1 * L) in E by lia.
    replace (o + k) with (o + k - L + 1 * L) in E by lia.
    rewrite !Nat.mod_add, !Nat.mod_small in E by lia. lia.
Qed.

Lemma circ_write_inside l off src k :
  length src <= length l -> k < length src ->
  circ (circ_write l off src) (off + k) = nth k src false.
Proof.
  revert l off k; induction src as [|b t IH]; intros l off k Hl Hk; cbn [length] in *; [lia|].
  cbn [circ_write]. destruct k as [|k].
  - unfold circ. rewrite circ_write_length, upd_length.
    pose proof (mod_lt off (length l)).
    rewrite circ_write_outside; rewrite ?Nat.add_0_r.
    + cbn [nth]. apply nth_upd_same; lia.
    + rewrite upd_length. intros j Hj E.
      replace (S off + j) with (off + S j) in E by lia. replace (off mod length l) with ((off + 0) mod length l) in E by (f_equal; lia).
      apply mod_inj_window in E; lia.
  - replace (off + S k) with (S off + k) by lia. rewrite IH; [reflexivity|rewrite upd_length; lia|lia].
Qed.

Lemma window_circ_write l off src : length src <= length l -> window (circ_write l off src) off (length src) = src.
Proof.
  intros H. unfold window. apply list_eq_nth_error. intros i.
  rewrite nth_error_map_seq. destruct (Nat.ltb_spec i (length src)).
  - rewrite circ_write_inside by auto. symmetry. apply nth_error_nth'; auto.
  - symmetry. apply nth_error_None; auto.
Qed.

(* Sequential ring writes are one circular write. *)
Lemma ring_set_list r off src : plain r ->
  ofold (fun '(r, i) bit => let! r' := ring_set r (off + i) bit in Ok (r', S i)) src (r, 0)
  = Ok (ring_with r (circ_write (r_bits r) off src), length src).
Proof.
  intros Hp.
  assert (G : forall src r i, plain r ->
    ofold (fun '(r, i) bit => let! r' := ring_set r (off + i) bit in Ok (r', S i)) src (r, i)
    = Ok (ring_with r (circ_write (r_bits r) (off + i) src), i + length src)).
  { clear. induction src as [|b t IH]; intros r i Hp; cbn [ofold circ_write length].
    - f_equal. f_equal; [|lia]. destruct r; reflexivity.
    - rewrite ring_set_plain by auto. cbn [obind]. rewrite IH.
      + cbn [ring_with r_bits]. f_equal. f_equal; [|lia]. unfold ring_with; cbn. f_equal. f_equal. lia.
      + apply plain_with; auto. apply upd_length. }
  rewrite G by auto. rewrite Nat.add_0_r. reflexivity.
Qed.

Lemma ring_set_list2 r off src : plain r ->
  ofold (fun '(r, off) bit => let! r' := ring_set r off bit in Ok (r', S off)) src (r, off)
  = Ok (ring_with r (circ_write (r_bits r) off src), off + length src).
Proof.
  revert r off. induction src as [|b t IH]; intros r off Hp; cbn [ofold circ_write length].
  - f_equal. f_equal; [|lia]. destruct r; reflexivity.
  - rewrite ring_set_plain by auto. cbn [obind]. rewrite IH.
    + cbn [ring_with r_bits]. f_equal. f_equal; lia.
    + apply plain_with; auto. apply upd_length.
Qed.

Lemma ring_iter_revolution_plain r : plain r -> ring_iter_revolution r = Ok (r_bits r).
Proof.
  intros (H1 & H2 & H3). unfold ring_iter_revolution. rewrite H1.
  assert (G : forall n, n <= length (r_bits r) ->
    ofold (fun acc i => let! b := oindex (r_bits r) i in Ok (b :: acc)) (seq 0 n) [] = Ok (rev (firstn n (r_bits r)))).
  { clear. intros n. set (l := r_bits r).
    assert (G : forall n s acc, s + n <= length l ->
      ofold (fun acc i => let! b := oindex l i in Ok (b :: acc)) (seq s n) acc = Ok (rev (slice l s n) ++ acc)).
    { clear. induction n as [|n IH]; intros s acc H; cbn [seq ofold]; [reflexivity|].
      rewrite (oindex_nth _ _ false) by lia. cbn [obind]. rewrite IH by lia. f_equal.
      replace (S n) with (1 + n) by lia. rewrite firstn_skipn_app_eq.
      replace (s + 1) with (S s) by lia. rewrite rev_app_distr, <- app_assoc. f_equal.
      assert (E : slice l s 1 = [nth s l false]).
      { unfold slice. clear -H. revert s H; induction l as [|a l IH]; intros s H; cbn in H; [lia|].
        destruct s; cbn; [destruct l; auto|apply IH; lia]. }
      rewrite E. reflexivity. }
    intros H. rewrite G by lia. rewrite app_nil_r. reflexivity. }
  rewrite G by auto. cbn. rewrite firstn_all, rev_involutive. reflexivity.
Qed.
