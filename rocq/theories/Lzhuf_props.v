(* Lzhuf_props.v - C57, C58, C59: TeleDisk's LZHUF compression. *)
From Coq Require Import ZArith Permutation.
From Verif Require Import Base Base_lemmas BitRing_proofs Crc_proofs Huff_model Huff_proofs Huffb_proofs Huffc_proofs Huffd_proofs Huffe_proofs Huffenc_proofs
  Lzhuf_model Lzhuf_spec Lzhuf_proofs Lzhufd_proofs.
Import ListNotations.
Open Scope nat_scope.

(* what the expander leaves in its buffer, and the length it reports *)
Definition expanded (out : list N) : list N * N :=
  (match out with [] => [] | _ => repeat 0%N 12 ++ out end, N.of_nat (length out)).
(* encoding a list of tokens *)
Definition encode_token (s : coder) (t : token) : outcome coder :=
  match t with Lit b => encode_literal s b | Copy dist len => encode_match s dist len end.
Definition encode_tokens (ts : list token) : outcome (list N) :=
  let! s := coder_new in let! s := ofold encode_token ts s in Ok (w_buf (co_out s)).

(* ---- C57 ---- *)
Lemma expand_only file ts bits rest : (12 <= N.of_nat (length file))%N -> body_bits file = bits ++ rest -> coded tree314 [] ts bits -> within ts ->
  no_token tree314 (map token_symbol ts) rest -> lzhuf_expand file = Ok (expanded (lz ts)).
Proof.
  intros L E C Wn No. destruct (lzhuf_expand_ok file L) as [ts' [bits' [rest' [X1 [X2 [X3 [X4 X5]]]]]]].
  rewrite E in X2. destruct (coded_unique _ _ _ _ C _ _ _ _ X3 X2) as [[t' [tl [w [A1 [A2 [A3 [q A4]]]]]]]|[[t' [tl [w [A1 [A2 [A3 [q A4]]]]]]]|[A1 _]]].
  - exfalso. exact (No t' w q A2 A3 A4).
  - exfalso. cbn [app] in A3. destruct X5 as [X5|X5]; [exact (X5 t' w q A2 A3 A4)|]. specialize (Wn _ _ _ A1). lia.
  - rewrite X1, A1. reflexivity.
Qed.
Theorem C57_expand :
  exists tree : list nat -> ctree,
    (* after any symbols the code is that of a Huffman tree for their counts *)
    (forall past, Forall (fun y => y < 314) past -> huffman_tree 314 (counts 314 past) (tree past)) /\
    (* any file of at least 12 bytes expands, to the tokens its bits hold *)
    (forall file, (12 <= N.of_nat (length file))%N ->
       exists ts bits rest, lzhuf_expand file = Ok (expanded (lz ts)) /\ body_bits file = bits ++ rest /\ coded tree [] ts bits /\ within ts /\
         (no_token tree (map token_symbol ts) rest \/ (limit <= 12 + N.of_nat (length (lz ts)))%N)) /\
    (* and to no others *)
    (forall file ts bits rest, (12 <= N.of_nat (length file))%N -> body_bits file = bits ++ rest -> coded tree [] ts bits -> within ts ->
       no_token tree (map token_symbol ts) rest -> lzhuf_expand file = Ok (expanded (lz ts))).
Proof.
  exists tree314. split; [|split].
  - intros past F. apply tree_at_huffman; [lia|reflexivity|exact F].
  - exact lzhuf_expand_ok.
  - exact expand_only.
Qed.
(* the output consists of bytes *)
Lemma copyg_bytes pre len : forall back out, bytes_ok pre = true -> bytes_ok out = true -> bytes_ok (copyg pre len back out) = true.
Proof.
  induction len as [|len IH]; intros back out Hp Ho; [exact Ho|]. cbn [copyg]. apply IH; [exact Hp|].
  apply bytes_ok_Forall. apply Forall_app. split; [apply bytes_ok_Forall; exact Ho|]. constructor; [|constructor].
  assert (F : Forall (fun b => (b < 256)%N) (pre ++ out)) by (apply Forall_app; split; apply bytes_ok_Forall; assumption).
  destruct (nth_in_or_default (length (pre ++ out) - back) (pre ++ out) 0%N) as [I|I]; [exact (proj1 (Forall_forall _ _) F _ I)|rewrite I; reflexivity].
Qed.
Lemma lz_bytes ts : Forall token_ok ts -> bytes_ok (lz ts) = true.
Proof.
  unfold lz. assert (G : forall out, bytes_ok out = true -> Forall token_ok ts -> bytes_ok (fold_left lz_step ts out) = true); [|intros F; exact (G [] eq_refl F)].
  induction ts as [|t ts IH]; intros out Ho F; [exact Ho|]. inversion F as [|? ? O F']; subst. cbn [fold_left]. apply IH; [|exact F'].
  destruct t as [b|d l]; cbn [lz_step token_ok] in *.
  - apply bytes_ok_Forall. apply Forall_app. split; [apply bytes_ok_Forall; exact Ho|]. constructor; [exact O|constructor].
  - rewrite (copy_bytes_g (repeat 0%N 60 ++ repeat 32%N 4036)) by (intros o; unfold history; rewrite <- app_assoc; reflexivity).
    apply copyg_bytes; [|exact Ho]. apply bytes_ok_Forall. apply Forall_app. split; apply Forall_forall; intros x Hx; apply repeat_spec in Hx; subst; reflexivity.
Qed.
Lemma coded_ok tree past ts bits : coded tree past ts bits -> Forall token_ok ts.
Proof. induction 1; constructor; assumption. Qed.
Theorem C57_expand_bytes file buf len : lzhuf_expand file = Ok (buf, len) -> bytes_ok buf = true /\ (N.of_nat (length buf) = if len =? 0 then 0 else len + 12)%N.
Proof.
  intros E. assert (L : (12 <= N.of_nat (length file))%N).
  { unfold lzhuf_expand in E. destruct (Nat.ltb_spec (length file) 12); [discriminate|]. lia. }
  destruct (lzhuf_expand_ok file L) as [ts [bits [rest [X1 [_ [X3 _]]]]]]. rewrite X1 in E. injection E as <- <-.
  pose proof (lz_bytes ts (coded_ok _ _ _ _ X3)) as B. destruct (lz ts) as [|b o]; [split; reflexivity|].
  split.
  - exact B.
  - destruct (N.eqb_spec (N.of_nat (length (b :: o))) 0) as [Z|Z]; [cbn [length] in Z; lia|]. cbn [length app repeat]. lia.
Qed.
(* below 12 bytes the subtraction of the header's length underflows; the loader has read 12 bytes before *)
Theorem C57_expand_short_refuted : exists file, lzhuf_expand file = Panic.
Proof. exists [1; 2; 3]%N. reflexivity. Qed.

(* ---- C58 ---- *)
Definition short_codes (tree : list nat -> ctree) (ts : list token) : Prop :=
  forall a t b w, ts = a ++ t :: b -> codeword (tree (map token_symbol a)) (token_symbol t) w -> length w <= 16.
Lemma token_symbol_lt n t : N.of_nat n = 314%N -> token_ok t -> token_symbol t < n.
Proof. intros Hn. destruct t as [b|d l]; cbn [token_ok token_symbol]; intros H; lia. Qed.
Lemma symbols_lt n ts : N.of_nat n = 314%N -> Forall token_ok ts -> Forall (fun y => y < n) (map token_symbol ts).
Proof. intros Hn. induction 1; cbn [map]; constructor; [apply token_symbol_lt; assumption|assumption]. Qed.
Lemma encode_loop n ts : N.of_nat n = 314%N -> forall past s all, hstate n past = Ok (co_tree s) -> valid n (co_tree s) -> written all (co_bits s) (co_out s) -> Forall token_ok ts ->
  (forall a t b w, ts = a ++ t :: b -> codeword (tree_at n (past ++ map token_symbol a)) (token_symbol t) w -> length w <= 16) ->
  exists s' bits, ofold encode_token ts s = Ok s' /\ coded (tree_at n) past ts bits /\ written (all ++ bits) (co_bits s') (co_out s').
Proof.
  intros Hn. induction ts as [|t ts IH]; intros past s all Hst V Hw F Sh.
  - exists s, []. rewrite app_nil_r. split; [reflexivity|]. split; [constructor|exact Hw].
  - pose proof (Forall_inv F) as O. pose proof (Forall_inv_tail F) as F'.
    assert (Et : tree_of n (co_tree s) = tree_at n past) by (unfold tree_at; rewrite Hst; reflexivity).
    pose proof (token_symbol_lt n t Hn O) as Hy.
    assert (Cw : exists w, codeword (tree_of n (co_tree s)) (token_symbol t) w).
    { apply codeword_exists. pose proof (valid_huffman _ _ V) as [P _]. apply (Permutation_in _ (Permutation_sym P)). apply in_seq. clear - Hy; lia. }
    destruct Cw as [w Cw]. pose proof (codeword_nonempty _ _ _ _ V Cw) as W0.
    assert (L16 : length w <= 16). { apply (Sh [] t ts w eq_refl). cbn [map]. rewrite app_nil_r, <- Et. exact Cw. }
    destruct (encode_char_ok n s _ w all V Cw L16 W0 Hw) as [s1 [E1 [U1 [V1 W1]]]].
    assert (Hst1 : hstate n (past ++ [token_symbol t]) = Ok (co_tree s1)) by (rewrite hstate_snoc, Hst; exact U1).
    assert (Sh1 : forall a t0 b w, ts = a ++ t0 :: b -> codeword (tree_at n ((past ++ [token_symbol t]) ++ map token_symbol a)) (token_symbol t0) w -> length w <= 16).
    { intros a t0 b w0 E0 C0. apply (Sh (t :: a) t0 b w0); [cbn [app]; rewrite E0; reflexivity|]. cbn [map]. rewrite <- app_assoc in C0. exact C0. }
    assert (Step : exists s2, encode_token s t = Ok s2 /\ co_tree s2 = co_tree s1 /\ written ((all ++ w) ++ token_tail t) (co_bits s2) (co_out s2)).
    { destruct t as [b|d l]; cbn [encode_token token_tail token_symbol] in *.
      - exists s1. rewrite app_nil_r. unfold encode_literal. split; [exact E1|]. split; [reflexivity|exact W1].
      - unfold encode_match. replace (N.to_nat (255 - 2 + l)) with (N.to_nat (l + 253)) by (clear; lia). rewrite E1. cbn [obind].
        destruct O as [O1 O2]. exact (encode_position_ok s1 d (all ++ w) O1 W1). }
    destruct Step as [s2 [E2 [T2 W2]]]. rewrite <- T2 in Hst1, V1.
    destruct (IH _ s2 _ Hst1 V1 W2 F' Sh1) as [s' [bits [E3 [C3 W3]]]].
    exists s', (w ++ token_tail t ++ bits). cbn [ofold]. rewrite E2. cbn [obind]. split; [exact E3|]. split.
    + apply coded_cons; [exact O|rewrite <- Et; exact Cw|exact C3].
    + rewrite <- !app_assoc in W3. exact W3.
Qed.
Lemma lz_app a b : lz (a ++ b) = fold_left lz_step b (lz a).
Proof. unfold lz. apply fold_left_app. Qed.
Lemma coded_prefix tree a : forall past b bits, coded tree past (a ++ b) bits ->
  exists b1 b2, bits = b1 ++ b2 /\ coded tree past a b1 /\ coded tree (past ++ map token_symbol a) b b2.
Proof.
  induction a as [|t a IH]; intros past b bits C; cbn [app map] in *.
  - exists [], bits. rewrite app_nil_r. split; [reflexivity|]. split; [constructor|exact C].
  - inversion C as [|? ? ? w bs O Cw C1]; subst. destruct (IH _ _ _ C1) as [b1 [b2 [-> [C2 C3]]]].
    exists (w ++ token_tail t ++ b1), b2. rewrite <- !app_assoc. split; [reflexivity|]. split; [apply coded_cons; assumption|]. rewrite <- app_assoc in C3. exact C3.
Qed.
Lemma coded_bits n past ts bits : N.of_nat n = 314%N -> Forall (fun y => y < n) past -> coded (tree_at n) past ts bits -> length ts <= length bits.
Proof.
  intros En F C. revert F. induction C as [past|past t ts w bits O Cw C IH]; intros F; [cbn [length]; lia|].
  destruct (hstate_ok n past ltac:(lia) ltac:(rewrite En; reflexivity) F) as [tt [E [V _]]]. unfold tree_at in Cw. rewrite E in Cw.
  pose proof (codeword_nonempty _ _ _ _ V Cw) as W0. pose proof (tree_symbols _ _ _ _ V Cw) as Hy.
  specialize (IH ltac:(apply Forall_app; split; [exact F|constructor; [exact Hy|constructor]])).
  rewrite !app_length. destruct w; [congruence|]. cbn [length]. lia.
Qed.
Lemma round_trip header ts : length header = 12 -> Forall token_ok ts -> within ts -> (12 + N.of_nat (length (lz ts)) < limit)%N -> short_codes tree314 ts ->
  exists bytes extra, encode_tokens ts = Ok bytes /\ bytes_ok bytes = true /\ lzhuf_expand (header ++ bytes) = Ok (expanded (lz (ts ++ extra))) /\
    length extra <= 7 /\ Forall token_ok extra.
Proof.
  intros Lh F Wn Lim Sh. unfold encode_tokens, coder_new. change (256 + 60 - 2) with 314.
  assert (Hx : exists n, n = 314 /\ N.of_nat n = 314%N) by (exists 314; split; reflexivity). destruct Hx as [n [E314 Hn]].
  assert (ET : tree314 = tree_at n) by (rewrite E314; reflexivity). pose proof lzhuf_expand_ok as XX. rewrite ET in *. rewrite <- E314. clear E314 ET.
  destruct (create_ok n ltac:(clear - Hn; lia) ltac:(clear - Hn; lia)) as [t0 [Et [V _]]]. rewrite Et. cbn [obind].
  assert (Hst : hstate n [] = Ok t0) by (unfold hstate; rewrite Et; reflexivity).
  destruct (encode_loop n ts Hn [] (mkCo t0 [] (mkW [] 0)) [] Hst V written_nil F Sh) as [s' [bits [E1 [C1 W1]]]].
  rewrite E1. cbn [obind app] in *. destruct W1 as [B1 _]. rewrite B1.
  destruct (pack_bits bits) as [k [P1 [P2 _]]].
  assert (Eb : body_bits (header ++ pack bits) = bits ++ repeat false k).
  { unfold body_bits. rewrite skipn_app, Lh. rewrite skipn_all2 by lia. exact P1. }
  destruct (XX (header ++ pack bits) ltac:(rewrite app_length, Lh; lia)) as [ts' [bits' [rest' [X1 [X2 [X3 [X4 X5]]]]]]].
  rewrite Eb in X2. exists (pack bits).
  assert (G : exists extra, ts' = ts ++ extra).
  { destruct (coded_unique _ _ _ _ C1 _ _ _ _ X3 X2) as [[t' [tl [w [A1 _]]]]|[[t' [tl [w [A1 [A2 [A3 [q A4]]]]]]]|[A1 _]]].
    - exists (t' :: tl). exact A1.
    - exfalso. cbn [app] in A3. destruct X5 as [X5|X5]; [exact (X5 t' w q A2 A3 A4)|]. specialize (Wn _ _ _ A1). lia.
    - exists []. rewrite app_nil_r. congruence. }
  destruct G as [extra ->]. exists extra. split; [reflexivity|]. split; [apply pack_bytes|]. split; [exact X1|].
  destruct (coded_prefix _ _ _ _ _ X3) as [b1 [b2 [E2 [C2 C3]]]].
  rewrite E2, <- app_assoc in X2.
  assert (Er : repeat false k = b2 ++ rest').
  { destruct (coded_unique _ _ _ _ C1 _ _ _ _ C2 X2) as [[t' [tl [w [A1 _]]]]|[[t' [tl [w [A1 _]]]]|[_ [_ A]]]]; [| |exact A];
      apply (f_equal (@length token)) in A1; rewrite app_length in A1; cbn [length] in A1; lia. }
  cbn [app] in C3. split; [|exact (coded_ok _ _ _ _ C3)].
  pose proof (coded_bits n _ _ _ Hn (symbols_lt n ts Hn F) C3) as Lb. apply (f_equal (@length bool)) in Er. rewrite repeat_length, app_length in Er. lia.
Qed.
Lemma few_short ts : Forall token_ok ts -> (N.of_nat (length ts) <= 3867)%N -> short_codes tree314 ts.
Proof.
  assert (Hx : exists n, n = 314 /\ N.of_nat n = 314%N) by (exists 314; split; reflexivity). destruct Hx as [n [E314 Hn]].
  assert (ET : tree314 = tree_at n) by (rewrite E314; reflexivity). rewrite ET. clear E314 ET.
  intros F L a t b w E C. pose proof (symbols_lt n ts Hn F) as Fs. rewrite E, map_app in Fs. apply Forall_app in Fs. destruct Fs as [Fa _].
  destruct (counts_facts n _ Fa) as [C1 [C2 C3]].
  pose proof (huffman_depth n _ _ _ _ C1 C2 (tree_at_huffman n _ ltac:(clear - Hn; lia) ltac:(clear - Hn; lia) Fa) C) as D.
  rewrite map_length in C3. rewrite E, app_length in L. cbn [length] in L.
  destruct (Nat.le_gt_cases (length w) 16) as [G|G]; [exact G|]. exfalso. pose proof (fibw_le 17 (length w) G) as M.
  change (fibw 17) with 4181%N in M. rewrite Hn in C3. clear - M C3 D L. lia.
Qed.
Lemma copy_length len : forall back out, length (copy_bytes len back out) = length out + len.
Proof. induction len as [|len IH]; intros back out; cbn [copy_bytes]; [lia|]. rewrite IH, app_length. cbn [length]. lia. Qed.
Lemma lz_length ts : Forall token_ok ts -> (N.of_nat (length (lz ts)) <= 60 * N.of_nat (length ts))%N.
Proof.
  induction ts as [|t ts IH] using rev_ind; intros F; [vm_compute; discriminate|]. apply Forall_app in F. destruct F as [F1 F2]. specialize (IH F1).
  rewrite lz_app, app_length. cbn [fold_left length]. inversion F2 as [|? ? O _]; subst. destruct t as [b|d l]; cbn [lz_step token_ok] in *.
  - rewrite app_length. cbn [length]. lia.
  - rewrite copy_length. lia.
Qed.
Lemma few_within ts : Forall token_ok ts -> (N.of_nat (length ts) <= 71582787)%N -> within ts.
Proof.
  intros F L a t b E. rewrite E in F, L. apply Forall_app in F. destruct F as [F _]. pose proof (lz_length a F). rewrite app_length in L. cbn [length] in L.
  unfold limit. lia.
Qed.

(* What the coder writes, the expander gives back; the zeros filling the last byte can only add a few tokens at the end. *)
Theorem C58_round_trip header ts : length header = 12 -> Forall token_ok ts -> (N.of_nat (length ts) <= 3867)%N ->
  exists bytes extra, encode_tokens ts = Ok bytes /\ bytes_ok bytes = true /\ lzhuf_expand (header ++ bytes) = Ok (expanded (lz (ts ++ extra))) /\
    length extra <= 7 /\ Forall token_ok extra.
Proof.
  intros Lh F L. apply round_trip; [exact Lh|exact F|apply few_within; [exact F|lia]| |apply few_short; assumption].
  pose proof (lz_length ts F). unfold limit. lia.
Qed.
(* Streams of any length, as long as no codeword needs more than the 16 bits the coder has room for. *)
Theorem C58_round_trip_long :
  exists tree : list nat -> ctree,
    (forall past, Forall (fun y => y < 314) past -> huffman_tree 314 (counts 314 past) (tree past)) /\
    forall header ts, length header = 12 -> Forall token_ok ts -> (N.of_nat (length ts) <= 71582787)%N ->
      (forall a t b w, ts = a ++ t :: b -> codeword (tree (map token_symbol a)) (token_symbol t) w -> length w <= 16) ->
      exists bytes extra, encode_tokens ts = Ok bytes /\ bytes_ok bytes = true /\ lzhuf_expand (header ++ bytes) = Ok (expanded (lz (ts ++ extra))) /\
        length extra <= 7 /\ Forall token_ok extra.
Proof.
  exists tree314. split; [intros past F; apply tree_at_huffman; [lia|reflexivity|exact F]|].
  intros header ts Lh F L Sh. apply round_trip; [exact Lh|exact F|apply few_within; assumption| |exact Sh].
  pose proof (lz_length ts F). unfold limit. lia.
Qed.
(* The expanded tokens start with the data encoded. *)
Theorem C58_expanded_starts ts extra : exists more, lz (ts ++ extra) = lz ts ++ more.
Proof.
  rewrite lz_app. generalize (lz ts) as out. induction extra as [|t extra IH]; intros out; [exists []; rewrite app_nil_r; reflexivity|]. cbn [fold_left].
  assert (S1 : exists m, lz_step out t = out ++ m).
  { destruct t as [b|d l]; cbn [lz_step]; [eexists; reflexivity|]. generalize (N.to_nat l) (N.to_nat d + 1). clear. intros k back. revert out.
    induction k as [|k IH]; intros out; cbn [copy_bytes]; [exists []; rewrite app_nil_r; reflexivity|].
    destruct (IH (out ++ [nth (length (history out) - back) (history out) 0%N])) as [m E]. rewrite E, <- app_assoc. eexists. reflexivity. }
  destruct S1 as [m E]. rewrite E. destruct (IH (out ++ m)) as [m2 E2]. rewrite E2, <- app_assoc. eexists. reflexivity.
Qed.
Example C58_example :
  exists bytes extra, encode_tokens [Lit 65; Copy 0 5; Lit 66; Copy 100 3] = Ok bytes /\ bytes_ok bytes = true /\
    lzhuf_expand (repeat 0%N 12 ++ bytes) = Ok (expanded (lz ([Lit 65; Copy 0 5; Lit 66; Copy 100 3] ++ extra))) /\ length extra <= 7 /\ Forall token_ok extra.
Proof. apply C58_round_trip; [reflexivity| |vm_compute; discriminate]. repeat constructor; cbn [token_ok]; lia. Qed.
Example C58_example_output : lz [Lit 65; Copy 0 5; Lit 66; Copy 100 3] = [65; 65; 65; 65; 65; 65; 66; 32; 32; 32]%N.
Proof. vm_compute. reflexivity. Qed.

(* ---- C59 ---- *)
(* The adaptive tree, for any number of symbols: it never fails, stays a Huffman tree for the counts, and the decoder reads its codewords. *)
Theorem C59_adaptive_tree n past : 2 <= n -> (N.of_nat n < 0x8000)%N -> Forall (fun y => y < n) past ->
  exists t tree, (let! t := ht_create n in ofold ht_update past t) = Ok t /\ huffman_tree n (counts n past) tree /\
    (forall bits ptr bytes y w r, ptr <= length bits -> codeword tree y w -> skipn ptr bits ++ flat_map byte_bits bytes = w ++ r ->
       exists t' bits' ptr' bytes', decode_char (mkDe t (mkBS bits ptr bytes)) = Ok (Some (y, mkDe t' (mkBS bits' ptr' bytes'))) /\ ht_update t y = Ok t' /\
         skipn ptr' bits' ++ flat_map byte_bits bytes' = r /\ ptr' <= length bits') /\
    (forall bits ptr bytes, ptr <= length bits -> (forall y w r, codeword tree y w -> skipn ptr bits ++ flat_map byte_bits bytes <> w ++ r) ->
       decode_char (mkDe t (mkBS bits ptr bytes)) = Ok None).
Proof.
  intros H2 Hn F. destruct (hstate_ok n past H2 Hn F) as [t [E [V Wt]]]. exists t, (tree_of n t). split; [exact E|]. split; [rewrite <- Wt; apply valid_huffman; exact V|]. split.
  - intros bits ptr bytes y w r Hp C Eb. destruct (decode_char_ok n t (mkBS bits ptr bytes) y w r V Hp C Eb) as [t' [[bits' ptr' bytes'] [D [U [_ [_ [B S]]]]]]].
    exists t', bits', ptr', bytes'. split; [exact D|]. split; [exact U|]. split; [exact B|exact S].
  - intros bits ptr bytes Hp No. apply (decode_char_eof n t _ V); [exact Hp|exact No].
Qed.
(* Codewords are at most 16 bits as long as the counts add up to less than 4181 (and no code of k bits occurs below the k-th of
   1, 2, 3, 5, 8, ...). *)
Theorem C59_code_length n c tree y w : length c = n -> Forall (fun x => (1 <= x)%N) c -> huffman_tree n c tree -> codeword tree y w ->
  (sum_counts c < 4181)%N -> length w <= 16.
Proof.
  intros L F H C S. pose proof (huffman_depth n c tree y w L F H C) as D. destruct (Nat.le_gt_cases (length w) 16) as [G|G]; [exact G|]. exfalso.
  pose proof (fibw_le 17 (length w) ltac:(lia)) as M. change (fibw 17) with 4181%N in M. lia.
Qed.
(* after the symbols 3, 3, 1 and 3 of four: the counts, and the tree *)
Example C59_example : counts 4 [3; 3; 1; 3] = [1; 2; 1; 4]%N /\ tree_at 4 [3; 3; 1; 3] = Node (Leaf 3) (Node (Leaf 1) (Node (Leaf 0) (Leaf 2))).
Proof. split; vm_compute; reflexivity. Qed.
Example C59_example_halved : exists c, sum_counts c = 0x8000%N /\ count_symbol c 1 = [1; 0x2001; 0x2000]%N.
Proof. exists [1; 0x3fff; 0x4000]%N. split; vm_compute; reflexivity. Qed.

Print Assumptions C57_expand.
Print Assumptions C57_expand_bytes.
Print Assumptions C57_expand_short_refuted.
Print Assumptions C58_round_trip.
Print Assumptions C58_round_trip_long.
Print Assumptions C58_expanded_starts.
Print Assumptions C59_adaptive_tree.
Print Assumptions C59_code_length.
