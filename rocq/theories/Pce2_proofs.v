(* Pce2_proofs.v - the weak bit table and the tracks of a PRI file. *)
From Verif Require Import Base Base_lemmas Mfm_spec Mfm_proofs Crc_proofs Crc32_model Crc32_spec Crc32_proofs Marker_proofs
  Chs_model BitRing_model Mfm_model Types_model System34_model MetaSector_model BitStream_model DiskImage_model DiskImage_spec DiskImage_proofs
  Format_model Raw_model Bs_general_proofs Format2_proofs Pce_model Pce_proofs Pce_spec.
From Coq Require Import Lia Sorting.Sorted.

(* ---- to_bytes ---- *)
Lemma to_bytes_props : forall f l, length l <= f ->
  firstn (length l) (flat_map byte_bits (to_bytes_loop f l)) = l /\ bytes_ok (to_bytes_loop f l) = true /\
  8 * length (to_bytes_loop f l) <= length l + 7 /\ length l <= 8 * length (to_bytes_loop f l).
Proof.
  induction f as [f IH] using lt_wf_ind. intros l Hl.
  destruct l as [|b l0] eqn:El; [destruct f; cbn; repeat split; lia|]. rewrite <- El in *.
  destruct f as [|f]; [subst; cbn in Hl; lia|].
  assert (Eu : to_bytes_loop (S f) l = bits_val (firstn 8 (l ++ repeat false 8)) :: to_bytes_loop f (skipn 8 l)) by (rewrite El; reflexivity).
  assert (Hpos : 0 < length l) by (rewrite El; cbn; lia). clear El b l0.
  destruct (IH f ltac:(lia) (skipn 8 l)) as (A & B & C & D); [rewrite skipn_length; lia|].
  rewrite skipn_length in *. rewrite Eu.
  assert (L8 : length (firstn 8 (l ++ repeat false 8)) = 8) by (rewrite firstn_length, app_length, repeat_length; lia).
  split; [|split; [|cbn [length]; lia]].
  - cbn [flat_map]. rewrite byte_bits_bits_val by exact L8.
    rewrite firstn_app, L8, A. rewrite firstn_firstn.
    destruct (Nat.le_gt_cases 8 (length l)) as [H|H].
    + rewrite (Nat.min_r (length l) 8) by lia.
      rewrite firstn_app. replace (8 - length l) with 0 by lia. rewrite firstn_O, app_nil_r. apply firstn_skipn.
    + rewrite (Nat.min_l (length l) 8) by lia. rewrite (skipn_all2 l) by lia. rewrite app_nil_r.
      rewrite firstn_app, Nat.sub_diag, firstn_all, firstn_O, app_nil_r. reflexivity.
  - cbn [bytes_ok forallb]. fold (bytes_ok (to_bytes_loop f (skipn 8 l))). rewrite B. rewrite andb_true_r. unfold is_byte. apply N.ltb_lt.
    pose proof (bits_val_lt (firstn 8 (l ++ repeat false 8))) as Hv. rewrite L8 in Hv. exact Hv.
Qed.

(* ---- the weak bit table ---- *)
Lemma lor_fold : forall l pos m i, pos + length l <= 32 -> i < 32 ->
  N.testbit (fold_left (fun m '(pos, b) => N.lor m (N.shiftl (b2N b) (N.of_nat (31 - pos)))) (combine (seq pos (length l)) l) m) (N.of_nat (31 - i)) =
  N.testbit m (N.of_nat (31 - i)) || (pos <=? i) && nth (i - pos) l false.
Proof.
  induction l as [|b l IH]; intros pos m i H Hi.
  - cbn [length seq combine fold_left]. destruct (i - pos); cbn [nth]; rewrite andb_false_r, orb_false_r; reflexivity.
  - cbn [length seq combine fold_left] in *. rewrite IH by lia. rewrite N.lor_spec.
    assert (E : N.testbit (N.shiftl (b2N b) (N.of_nat (31 - pos))) (N.of_nat (31 - i)) = b && (i =? pos)).
    { destruct b; [|rewrite N.shiftl_0_l, N.bits_0; reflexivity]. cbn [b2N andb].
      rewrite N.shiftl_1_l, N.pow2_bits_eqb. destruct (Nat.eqb_spec i pos) as [->|E].
      - apply N.eqb_refl.
      - apply N.eqb_neq. lia. }
    rewrite E. rewrite <- orb_assoc. f_equal.
    destruct (Nat.eqb_spec i pos) as [->|Hne].
    + replace (S pos <=? pos) with false by (symmetry; apply Nat.leb_gt; lia). rewrite Nat.leb_refl, Nat.sub_diag, andb_true_r.
      cbn [andb nth]. apply orb_false_r.
    + rewrite andb_false_r. cbn [orb].
      destruct (Nat.leb_spec (S pos) i), (Nat.leb_spec pos i); cbn [andb]; try reflexivity; try lia.
      replace (i - pos) with (S (i - S pos)) by lia. reflexivity.
Qed.
Lemma entry_mask_bit t i : i < 32 ->
  N.testbit (weak_entry_mask t) (N.of_nat (31 - i)) = nth i (true :: t) false.
Proof.
  intros Hi. unfold weak_entry_mask.
  assert (E : combine (seq 1 31) t = combine (seq 1 (length (firstn 31 t))) (firstn 31 t)).
  { rewrite firstn_length. destruct (Nat.le_gt_cases (length t) 31) as [H|H].
    - rewrite Nat.min_r by lia. rewrite (firstn_all2 t) by lia.
      replace 31 with (length t + (31 - length t)) by lia. rewrite seq_app.
      generalize (seq (1 + length t) (31 - length t)). generalize 1. clear. induction t as [|b t IH]; intros n l; [destruct l, (seq n 0); reflexivity|].
      cbn [length seq app combine]. f_equal. apply IH.
    - rewrite Nat.min_l by lia.
      assert (G : forall X (l : list X) n (t : list bool), length l = n -> combine l t = combine l (firstn n t)).
      { clear. intros X. induction l as [|x l IH]; intros n t Hn; [reflexivity|]. destruct t as [|b t]; [destruct n; reflexivity|].
        destruct n as [|n]; [discriminate|]. cbn [combine firstn]. f_equal. apply IH. cbn in Hn; lia. }
      apply (G nat (seq 1 31)). reflexivity. }
  rewrite E, lor_fold by (auto; rewrite firstn_length; lia).
  destruct i as [|i]; [reflexivity|].
  rewrite N.shiftl_1_l, N.pow2_bits_false by lia. cbn [orb Nat.leb andb nth]. replace (S i - 1) with i by lia.
  destruct (Nat.ltb_spec i (length t)) as [H|H].
  - assert (E2 : nth_error (firstn 31 t) i = nth_error t i) by (rewrite nth_error_firstn; destruct (Nat.ltb_spec i 31); [reflexivity|lia]).
    rewrite !nth_error_nth' with (d := false) in E2 by (rewrite ?firstn_length; lia). congruence.
  - rewrite !nth_overflow by (rewrite ?firstn_length; lia). reflexivity.
Qed.
Lemma land_shiftr_bit m i : i < 32 -> negb (N.land m (N.shiftr 0x80000000 (N.of_nat i)) =? 0)%N = N.testbit m (N.of_nat (31 - i)).
Proof.
  intros Hi. replace (N.shiftr 0x80000000 (N.of_nat i)) with (2 ^ N.of_nat (31 - i))%N; [apply land_pow2_0|].
  do 32 (destruct i as [|i]; [reflexivity|]). lia.
Qed.
Lemma weak_u32_spec m off : forall is l, (forall i, In i is -> i < 32) -> StronglySorted lt is ->
  length (weak_u32_loop is m off l) = length l /\
  forall j, j < length l -> nth j (weak_u32_loop is m off l) false =
    nth j l false || (off <=? j) && existsb (Nat.eqb (j - off)) is && N.testbit m (N.of_nat (31 - (j - off))).
Proof.
  induction is as [|i is IH]; intros l Hin Hs.
  - split; [reflexivity|]. intros j Hj. cbn [weak_u32_loop existsb]. rewrite andb_false_r, orb_false_r. reflexivity.
  - inversion Hs as [|? ? Hs' Hlt]; subst.
    assert (Hin' : forall i, In i is -> i < 32) by (intros; apply Hin; right; auto).
    assert (Hi : i < 32) by (apply Hin; left; auto).
    cbn [weak_u32_loop]. rewrite land_shiftr_bit by exact Hi.
    destruct (N.testbit m (N.of_nat (31 - i))) eqn:Eb.
    + destruct (Nat.leb_spec (length l) (i + off)) as [Hb|Hb].
      * split; [reflexivity|]. intros j Hj.
        replace ((off <=? j) && existsb (Nat.eqb (j - off)) (i :: is)) with false; [cbn [andb]; rewrite orb_false_r; reflexivity|].
        symmetry. destruct (Nat.leb_spec off j); [|reflexivity]. cbn [andb].
        destruct (existsb (Nat.eqb (j - off)) (i :: is)) eqn:Ex; [|reflexivity]. exfalso.
        apply existsb_exists in Ex as (x & Hx & Ex). apply Nat.eqb_eq in Ex. subst x.
        destruct Hx as [Hx|Hx]; [lia|]. rewrite Forall_forall in Hlt. apply Hlt in Hx. lia.
      * destruct (IH (upd l (i + off) true) Hin' Hs') as [L R]. rewrite upd_length in *. split; [exact L|].
        intros j Hj. rewrite R by exact Hj. cbn [existsb].
        destruct (Nat.eq_dec j (i + off)) as [->|Hne].
        -- replace (i + off - off) with i by lia. rewrite Nat.eqb_refl. cbn [orb].
           rewrite (nth_error_nth (upd l (i + off) true) (i + off) false (nth_error_upd_same l (i + off) true Hb)).
           cbn [orb]. replace (off <=? i + off) with true by (symmetry; apply Nat.leb_le; lia). rewrite Eb. cbn [andb].
           rewrite orb_true_r. reflexivity.
        -- assert (En : nth j (upd l (i + off) true) false = nth j l false).
           { apply nth_error_nth. rewrite nth_error_upd_other by lia. apply nth_error_nth'. exact Hj. }
           rewrite En. f_equal. destruct (Nat.leb_spec off j); [|reflexivity]. cbn [andb].
           replace (j - off =? i) with false by (symmetry; apply Nat.eqb_neq; lia). reflexivity.
    + destruct (IH l Hin' Hs') as [L R]. split; [exact L|]. intros j Hj. rewrite R by exact Hj. cbn [existsb].
      destruct (Nat.eqb_spec (j - off) i) as [E|E]; [|reflexivity]. cbn [orb]. rewrite E, Eb, !andb_false_r. reflexivity.
Qed.
Lemma seq_sorted : forall n k, StronglySorted lt (seq k n).
Proof.
  induction n as [|n IH]; intros k; cbn [seq]; constructor; auto. apply Forall_forall. intros x Hx. apply in_seq in Hx. lia.
Qed.
Lemma weak_u32_all m off l : length (weak_u32_loop (seq 0 32) m off l) = length l /\
  forall j, j < length l -> nth j (weak_u32_loop (seq 0 32) m off l) false =
    nth j l false || (off <=? j) && (j - off <? 32) && N.testbit m (N.of_nat (31 - (j - off))).
Proof.
  destruct (weak_u32_spec m off (seq 0 32) l) as [L R].
  - intros i Hi. apply in_seq in Hi. lia.
  - apply seq_sorted.
  - split; [exact L|]. intros j Hj. rewrite R by exact Hj. f_equal. f_equal. f_equal.
    destruct (Nat.ltb_spec (j - off) 32).
    + apply existsb_exists. exists (j - off). split; [apply in_seq; lia|apply Nat.eqb_refl].
    + destruct (existsb _ _) eqn:E; [|reflexivity]. apply existsb_exists in E as (x & Hx & Ex). apply Nat.eqb_eq in Ex.
      apply in_seq in Hx. lia.
Qed.
#[local] Opaque weak_u32_loop.
(* the table loaded into a mask *)
Definition load_entry (l : list bool) (e : nat * N) : list bool := weak_u32_loop (seq 0 32) (snd e) (fst e) l.
Definition load_entries (es : list (nat * N)) (l : list bool) : list bool := fold_left load_entry es l.
Lemma fold_left_cons {A B} (f : A -> B -> A) x l a : fold_left f (x :: l) a = fold_left f l (f a x).
Proof. reflexivity. Qed.
Lemma load_entries_cons e es l : load_entries (e :: es) l = load_entries es (load_entry l e).
Proof. unfold load_entries. apply fold_left_cons. Qed.
Lemma load_entry_all e l : length (load_entry l e) = length l /\
  forall j, j < length l -> nth j (load_entry l e) false =
    nth j l false || (fst e <=? j) && (j - fst e <? 32) && N.testbit (snd e) (N.of_nat (31 - (j - fst e))).
Proof. exact (weak_u32_all (snd e) (fst e) l). Qed.
Definition reweak (t : BitTrack) (l : list bool) : BitTrack :=
  let r := m_weak (bt_data t) in with_data t (with_weak (bt_data t) (mkRing l (r_wrap r) (r_cursor r) (r_wrapv r))).
Lemma write_weak_reweak t m off : write_weak_mask_u32 t m off = reweak t (load_entry (r_bits (m_weak (bt_data t))) (off, m)).
Proof. unfold write_weak_mask_u32, reweak, load_entry. cbn [fst snd]. reflexivity. Qed.
Lemma reweak_bits t l : r_bits (m_weak (bt_data (reweak t l))) = l.
Proof. reflexivity. Qed.
Lemma reweak_reweak t a b : reweak (reweak t a) b = reweak t b.
Proof. reflexivity. Qed.
#[local] Opaque load_entry.
Lemma entries_length : forall es l, length (load_entries es l) = length l.
Proof.
  induction es as [|e es IH]; intros l; [reflexivity|].
  rewrite load_entries_cons, IH. exact (proj1 (load_entry_all _ _)).
Qed.
Lemma nth_skipn_b (l : list bool) n i : nth i (skipn n l) false = nth (n + i) l false.
Proof.
  revert n. induction l as [|b l IH]; intros n; [rewrite skipn_nil; destruct i, (n + 0); destruct n; reflexivity|].
  destruct n as [|n]; [reflexivity|]. cbn [skipn plus nth]. apply IH.
Qed.
Lemma entries_spec : forall fuel off l T, length l <= fuel ->
  forall j, j < length T -> nth j (load_entries (weak_entries fuel off l) T) false =
    nth j T false || (S off <=? j) && nth (j - S off) l false.
Proof.
  induction fuel as [|fuel IH]; intros off l T Hl j Hj.
  - destruct l; [|cbn in Hl; lia]. cbn [weak_entries load_entries fold_left].
    destruct (j - S off); cbn [nth]; rewrite andb_false_r, orb_false_r; reflexivity.
  - destruct l as [|b t].
    + cbn [weak_entries load_entries fold_left]. destruct (j - S off); cbn [nth]; rewrite andb_false_r, orb_false_r; reflexivity.
    + cbn [length] in Hl. destruct b.
      * cbn [weak_entries]. rewrite load_entries_cons.
        destruct (load_entry_all (off + 1, weak_entry_mask t) T) as [L R]. cbn [fst snd] in R.
        rewrite IH by (rewrite ?skipn_length, ?L; lia). rewrite R by exact Hj. rewrite <- orb_assoc. f_equal.
        replace (off + 1) with (S off) by lia.
        destruct (Nat.leb_spec (S off) j) as [H1|H1]; cbn [andb].
        -- destruct (Nat.ltb_spec (j - S off) 32) as [H2|H2]; cbn [andb].
           ++ rewrite entry_mask_bit by exact H2.
              destruct (Nat.leb_spec (S (S off + length (firstn 31 t))) j) as [H3|H3]; [|apply orb_false_r]. cbn [andb].
              rewrite firstn_length in *. rewrite nth_skipn_b, (nth_overflow t) by lia. apply orb_false_r.
           ++ cbn [orb]. rewrite firstn_length.
              destruct (Nat.leb_spec (S (S off + Nat.min 31 (length t))) j) as [H3|H3]; [|lia]. cbn [andb].
              rewrite nth_skipn_b.
              destruct (Nat.le_gt_cases 31 (length t)) as [H4|H4].
              ** rewrite Nat.min_l by lia. replace (j - S off) with (S (31 + (j - S (S off + 31)))) by lia. reflexivity.
              ** rewrite !nth_overflow; [reflexivity| |]; cbn [length]; lia.
        -- destruct (Nat.leb_spec (S (S off + length (firstn 31 t))) j) as [H3|H3]; [lia|]. reflexivity.
      * cbn [weak_entries]. rewrite IH by (auto; lia). f_equal. replace (off + 1) with (S off) by lia.
        destruct (Nat.leb_spec (S (S off)) j) as [H1|H1], (Nat.leb_spec (S off) j) as [H2|H2]; cbn [andb]; try lia; try reflexivity.
        -- replace (j - S off) with (S (j - S (S off))) by lia. reflexivity.
        -- replace (j - S off) with 0 by lia. reflexivity.
Qed.
Lemma removelast_nth : forall (k : list bool) j, S j < length k -> nth j (removelast k) false = nth j k false.
Proof.
  induction k as [|x k IH]; intros j H; [cbn in H; lia|]. destruct k as [|y k]; [cbn in H; lia|].
  change (removelast (x :: y :: k)) with (x :: removelast (y :: k)). destruct j as [|j]; [reflexivity|].
  change (nth (S j) (x :: removelast (y :: k)) false) with (nth j (removelast (y :: k)) false).
  rewrite IH by (cbn [length] in *; lia). reflexivity.
Qed.
Lemma one_late_nth l j : j < length l -> nth j (one_late l) false = (1 <=? j) && nth (j - 1) l false.
Proof.
  intros H. destruct l as [|b l]; [cbn in H; lia|]. unfold one_late. destruct j as [|j]; [reflexivity|].
  change (nth (S j) (false :: removelast (b :: l)) false) with (nth j (removelast (b :: l)) false).
  rewrite removelast_nth by exact H. replace (S j - 1) with j by lia. reflexivity.
Qed.
Lemma one_late_length l : length (one_late l) = length l.
Proof.
  destruct l as [|b l]; [reflexivity|]. unfold one_late. cbn [length]. f_equal.
  revert b. induction l as [|x l IH]; intros b; [reflexivity|]. change (removelast (b :: x :: l)) with (b :: removelast (x :: l)).
  cbn [length]. f_equal. apply IH.
Qed.
Lemma entries_one_late mask : load_entries (weak_entries (length mask) 0 mask) (repeat false (length mask)) = one_late mask.
Proof.
  apply nth_ext with (d := false) (d' := false); [rewrite entries_length, repeat_length, one_late_length; reflexivity|].
  intros j Hj. rewrite entries_length, repeat_length in Hj.
  rewrite entries_spec by (rewrite ?repeat_length; lia). rewrite one_late_nth by exact Hj.
  rewrite nth_repeat. reflexivity.
Qed.
(* bounds of the table *)
Lemma entries_bounds : forall fuel off l, Forall (fun e => fst e <= off + length l) (weak_entries fuel off l) /\
  32 * length (weak_entries fuel off l) <= length l + 31.
Proof.
  induction fuel as [|fuel IH]; intros off l; [split; [constructor|cbn; lia]|].
  destruct l as [|[|] t]; cbn [weak_entries]; [split; [constructor|cbn; lia]| |].
  - destruct (IH (off + 1 + length (firstn 31 t)) (skipn 31 t)) as [A B]. rewrite skipn_length, firstn_length in *. split.
    + constructor; [cbn; lia|]. eapply Forall_impl; [|exact A]. cbn beta. intros e He. cbn [length]. lia.
    + cbn [length]. lia.
  - destruct (IH (off + 1) t) as [A B]. split; [|cbn [length]; lia].
    eapply Forall_impl; [|exact A]. cbn beta. intros e He. cbn [length]. lia.
Qed.
Lemma weak_entry_lt t : (weak_entry_mask t < 4294967296)%N.
Proof.
  unfold weak_entry_mask.
  assert (G : forall l m, (m < 2 ^ 32)%N -> (fold_left (fun m '(pos, b) => N.lor m (N.shiftl (b2N b) (N.of_nat (31 - pos)))) l m < 2 ^ 32)%N).
  { clear. induction l as [|[pos b] l IH]; intros m Hm; [exact Hm|]. cbn [fold_left]. apply IH.
    apply lt_pow2_bits. intros i Hi. rewrite N.lor_spec, (bits_lt_pow2 m 32) by auto. cbn [orb].
    destruct b; [|rewrite N.shiftl_0_l; apply N.bits_0]. cbn [b2N]. rewrite N.shiftl_1_l. apply N.pow2_bits_false. lia. }
  apply (G _ (N.shiftl 1 31)). reflexivity.
Qed.
Lemma entries_masks : forall fuel off l, Forall (fun e => snd e < 4294967296)%N (weak_entries fuel off l).
Proof.
  induction fuel as [|fuel IH]; intros off l; [constructor|]. destruct l as [|[|] t]; cbn [weak_entries]; auto.
  constructor; auto. apply weak_entry_lt.
Qed.
(* loading the bytes of the table *)
Lemma with_same_weak t : with_data t (with_weak (bt_data t) (mkRing (r_bits (m_weak (bt_data t))) (r_wrap (m_weak (bt_data t)))
   (r_cursor (m_weak (bt_data t))) (r_wrapv (m_weak (bt_data t))))) = t.
Proof. destruct t as [ch m md sc]. destruct m as [b c e we w ph cu r rf]. destruct w. reflexivity. Qed.
Lemma weak_load_spec : forall es t, Forall (fun e => N.of_nat (fst e) < 4294967296 /\ snd e < 4294967296)%N es ->
  weak_load (length es) (flat_map (fun '(off, m) => be32 (as_u32 (N.of_nat off)) ++ be32 m) es) t =
  Ok (reweak t (load_entries es (r_bits (m_weak (bt_data t))))).
Proof.
  induction es as [|[off m] es IH]; intros t H.
  - cbn [length flat_map weak_load load_entries fold_left]. f_equal. symmetry. apply with_same_weak.
  - inversion H as [|? ? [H1 H2] H']; subst. cbn [fst snd] in *.
    cbn [length flat_map weak_load]. rewrite <- app_assoc. rewrite as_u32_small by exact H1.
    rewrite read_be32_app by exact H1. cbn [obind]. rewrite read_be32_app by exact H2. cbn [obind].
    rewrite Nat2N.id. rewrite IH by exact H'. rewrite load_entries_cons, write_weak_reweak, reweak_bits, reweak_reweak. reflexivity.
Qed.
Lemma flat_map_entries_length (es : list (nat * N)) :
  length (flat_map (fun '(off, m) => be32 (as_u32 (N.of_nat off)) ++ be32 m) es) = 8 * length es.
Proof. induction es as [|[o m] es IH]; [reflexivity|]. cbn [flat_map length]. rewrite !app_length, !be32_length, IH. lia. Qed.
