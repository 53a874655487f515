(* Mfi_proofs.v *)
From Verif Require Import Base Base_lemmas Chs_model BitRing_model Mfm_model Types_model System34_model MetaSector_model BitStream_model DiskImage_model DiskImage_spec DiskImage_proofs Raw_model F86_model Pce_model Flux_model Flux_spec Flux_proofs Pll_model Hist_model Layout_spec Layout_proofs Tc_proofs Hxc_proofs Mfi_model Mfi_spec.
From Coq Require Import Lia.
Import ListNotations.
Local Open Scope nat_scope.

Lemma next_any heads c i : 1 <= heads -> i < c * heads ->
  next_track (ch_at heads i) (mkCh (N.of_nat c) (N.of_nat heads)) = if S i <? c * heads then Some (ch_at heads (S i)) else None.
Proof.
  intros Hh Hi. unfold next_track, ch_at. cbn [ch_c ch_h]. pose proof (Nat.div_mod i heads ltac:(lia)) as D. pose proof (Nat.mod_upper_bound i heads ltac:(lia)) as U. set (q := i / heads) in *. set (r := i mod heads) in *.
  assert (Hq : q < c) by (unfold q; apply Nat.div_lt_upper_bound; lia).
  destruct (N.ltb_spec (N.of_nat r) (N.of_nat heads - 1)) as [A|A].
  - assert (E3 : S i / heads = q) by (symmetry; apply (Nat.div_unique _ heads q (S r)); lia). assert (E4 : S i mod heads = S r) by (symmetry; apply (Nat.mod_unique _ heads q); lia).
    assert (L : S i < c * heads) by nia. apply Nat.ltb_lt in L. rewrite L, E3, E4. do 2 f_equal. lia.
  - assert (R : r = heads - 1) by lia. assert (E3 : S i / heads = q + 1) by (symmetry; apply (Nat.div_unique _ heads _ 0); lia). assert (E4 : S i mod heads = 0) by (symmetry; apply (Nat.mod_unique _ heads (q + 1)); lia).
    destruct (N.ltb_spec (N.of_nat q) (N.of_nat c - 1)) as [B|B].
    + assert (L : S i < c * heads) by nia. apply Nat.ltb_lt in L. rewrite L, E3, E4. do 2 f_equal. lia.
    + assert (L : c * heads <= S i) by nia. apply Nat.ltb_ge in L. rewrite L. reflexivity.
Qed.
Lemma iter_any heads c i : 1 <= heads -> 1 <= c -> i <= c * heads -> ch_iter_next (mkCh (N.of_nat c) (N.of_nat heads)) (iter_at heads i) =
  if i <? c * heads then (Some (ch_at heads i), iter_at heads (S i)) else (None, iter_at heads i).
Proof.
  intros Hh Hc Hi. destruct i as [|i].
  - replace (0 <? c * heads) with true by (symmetry; apply Nat.ltb_lt; nia). cbn [iter_at ch_iter_next]. unfold ch_at. rewrite Nat.div_0_l, Nat.mod_0_l by lia. reflexivity.
  - cbn [iter_at ch_iter_next]. rewrite next_any by lia. destruct (S i <? c * heads); reflexivity.
Qed.
Lemma seek_any heads c i : 1 <= heads -> S i < c * heads -> fst (seek_next_track (ch_at heads i) (mkCh (N.of_nat c) (N.of_nat heads))) = ch_at heads (S i).
Proof.
  intros Hh Hi. unfold seek_next_track. rewrite next_any by lia. assert (L := Hi). apply Nat.ltb_lt in L. rewrite L. cbn [ch_c ch_h ch_at].
  destruct (_ && _) eqn:E; [|reflexivity]. exfalso. apply andb_prop in E. destruct E as [A B]. apply N.eqb_eq in A. apply N.leb_le in B.
  pose proof (Nat.div_mod i heads ltac:(lia)) as D. pose proof (Nat.mod_upper_bound i heads ltac:(lia)) as U. set (q := i / heads) in *. set (r := i mod heads) in *. assert (c <> 0) by (intros ->; lia). assert (q = c - 1) by lia. assert (r = heads - 1) by lia. nia.
Qed.

(* the table *)
Definition entry_at (file : list N) (i : nat) : MfiEntry := mkME (mfi_offset file i) (mfi_packed file i) (mfi_size file i).
(* the last offset that is not 0 before entry i *)
Fixpoint last_off (file : list N) (i : nat) : N := match i with O => 0%N | S i => if (mfi_offset file i =? 0)%N then last_off file i else mfi_offset file i end.
Definition entry_ok (file : list N) (i : nat) : Prop := (0 < mfi_packed file i -> last_off file i <= mfi_offset file i)%N /\ (mfi_offset file i <= N.of_nat (length file))%N.
Lemma table_step file i : 32 + 16 * S i <= length file -> forall A (k : N -> N -> N -> list N -> outcome A),
  (let! (off, rest) := read_le32 (skipn (32 + 16 * i) file) in let! (comp, rest) := read_le32 rest in let! (uncomp, rest) := read_le32 rest in let! (_, rest) := read_le32 rest in k off comp uncomp rest) =
  k (mfi_offset file i) (mfi_packed file i) (mfi_size file i) (skipn (32 + 16 * S i) file).
Proof.
  intros H A k. rewrite le32_pos. replace (32 + 16 * i + 4 <=? length file) with true by (symmetry; apply Nat.leb_le; lia). cbn [obind].
  rewrite le32_pos. replace (32 + 16 * i + 4 + 4 <=? length file) with true by (symmetry; apply Nat.leb_le; lia). cbn [obind].
  rewrite le32_pos. replace (32 + 16 * i + 4 + 4 + 4 <=? length file) with true by (symmetry; apply Nat.leb_le; lia). cbn [obind].
  rewrite le32_pos. replace (32 + 16 * i + 4 + 4 + 4 + 4 <=? length file) with true by (symmetry; apply Nat.leb_le; lia). cbn [obind].
  unfold mfi_offset, mfi_packed, mfi_size. replace (32 + 16 * i + 8) with (32 + 16 * i + 4 + 4) by lia. replace (32 + 16 * S i) with (32 + 16 * i + 4 + 4 + 4 + 4) by lia. reflexivity.
Qed.
Lemma table_short file i : length file < 32 + 16 * S i -> forall A (k : N -> N -> N -> list N -> outcome A),
  (let! (off, rest) := read_le32 (skipn (32 + 16 * i) file) in let! (comp, rest) := read_le32 rest in let! (uncomp, rest) := read_le32 rest in let! (_, rest) := read_le32 rest in k off comp uncomp rest) = Err IoError.
Proof.
  intros H A k. rewrite le32_pos. destruct (Nat.leb_spec (32 + 16 * i + 4) (length file)); cbn [obind]; [|reflexivity].
  rewrite le32_pos. destruct (Nat.leb_spec (32 + 16 * i + 4 + 4) (length file)); cbn [obind]; [|reflexivity].
  rewrite le32_pos. destruct (Nat.leb_spec (32 + 16 * i + 4 + 4 + 4) (length file)); cbn [obind]; [|reflexivity].
  rewrite le32_pos. destruct (Nat.leb_spec (32 + 16 * i + 4 + 4 + 4 + 4) (length file)); cbn [obind]; [lia|reflexivity].
Qed.
Section table.
Variables (file : list N) (heads c : nat).
Hypothesis (Hh : 1 <= heads) (Hc : 1 <= c).
Let geom := mkCh (N.of_nat c) (N.of_nat heads).
Let tab k i := mfi_table k geom (iter_at heads i) (N.of_nat (length file)) (last_off file i) (skipn (32 + 16 * i) file).
Lemma tab_ok : forall k i, i + k = c * heads -> 32 + 16 * (c * heads) <= length file -> (forall j, i <= j < i + k -> entry_ok file j) ->
  tab k i = Ok (map (entry_at file) (seq i k)).
Proof.
  induction k as [|k IH]; intros i Hi L H; unfold tab; cbn [mfi_table]; unfold geom; rewrite iter_any by lia.
  - replace (i <? c * heads) with false by (symmetry; apply Nat.ltb_ge; lia). reflexivity.
  - replace (i <? c * heads) with true by (symmetry; apply Nat.ltb_lt; lia). rewrite table_step by lia. destruct (H i ltac:(lia)) as [A B].
    replace ((0 <? mfi_packed file i)%N && (mfi_offset file i <? last_off file i)%N) with false.
    2:{ symmetry. destruct (N.ltb_spec 0 (mfi_packed file i)) as [P|P]; [|reflexivity]. cbn [andb]. apply N.ltb_ge. apply A. exact P. }
    replace (N.of_nat (length file) <? mfi_offset file i)%N with false by (symmetry; apply N.ltb_ge; exact B).
    specialize (IH (S i) ltac:(lia) L (fun j Hj => H j ltac:(lia))). unfold tab, geom in IH. cbn [last_off] in IH. rewrite IH. reflexivity.
Qed.
Lemma tab_inv : forall k i l, i + k = c * heads -> tab k i = Ok l -> 32 + 16 * i <= length file -> 32 + 16 * (c * heads) <= length file /\ forall j, i <= j < i + k -> entry_ok file j.
Proof.
  induction k as [|k IH]; intros i l Hi E L; unfold tab in E; cbn [mfi_table] in E; unfold geom in E; rewrite iter_any in E by lia.
  - split; [replace (c * heads) with i by lia; exact L|intros j Hj; lia].
  - replace (i <? c * heads) with true in E by (symmetry; apply Nat.ltb_lt; lia). destruct (Nat.leb_spec (32 + 16 * S i) (length file)) as [A|A]; [|rewrite table_short in E by exact A; discriminate].
    rewrite table_step in E by exact A. destruct (_ && _) eqn:B; [discriminate|]. destruct (N.ltb_spec (N.of_nat (length file)) (mfi_offset file i)) as [D|D]; [discriminate|].
    destruct (mfi_table k _ _ _ _ _) as [l2| |] eqn:E2; try discriminate. destruct (IH (S i) l2 ltac:(lia) E2 A) as [P R]. split; [exact P|]. intros j Hj. destruct (Nat.eq_dec j i) as [->|N]; [|apply R; lia].
    split; [|exact D]. intros P0. apply N.ltb_lt in P0. rewrite P0 in B. cbn [andb] in B. apply N.ltb_ge in B. exact B.
Qed.
Lemma tab_no_panic : forall k i, i + k = c * heads -> tab k i <> Panic.
Proof.
  induction k as [|k IH]; intros i Hi E; unfold tab in E; cbn [mfi_table] in E; unfold geom in E; rewrite iter_any in E by lia.
  - replace (i <? c * heads) with false in E by (symmetry; apply Nat.ltb_ge; lia). discriminate.
  - replace (i <? c * heads) with true in E by (symmetry; apply Nat.ltb_lt; lia). destruct (Nat.leb_spec (32 + 16 * S i) (length file)) as [A|A]; [|rewrite table_short in E by exact A; discriminate].
    rewrite table_step in E by exact A. destruct (_ && _) eqn:B; [discriminate|]. destruct (N.of_nat (length file) <? mfi_offset file i)%N; [discriminate|]. destruct (mfi_table k _ _ _ _ _) as [l2| |] eqn:E2; try discriminate. exact (IH (S i) ltac:(lia) E2).
Qed.
End table.
(* what the order of the offsets means *)
Lemma last_off_spec file i : (last_off file i = 0%N /\ forall k, k < i -> mfi_offset file k = 0%N) \/ exists j, j < i /\ mfi_offset file j <> 0%N /\ last_off file i = mfi_offset file j /\ forall k, j < k < i -> mfi_offset file k = 0%N.
Proof.
  induction i as [|i IH]; [left; split; [reflexivity|lia]|]. cbn [last_off]. destruct (N.eqb_spec (mfi_offset file i) 0) as [E|E].
  - destruct IH as [[A B]|(j & A & B & C & D)]; [left; split; [exact A|]|right; exists j; split; [lia|split; [exact B|split; [exact C|]]]]; intros k Hk; (destruct (Nat.eq_dec k i) as [->|]; [exact E|]); [apply B; lia|apply D; lia].
  - right. exists i. split; [lia|]. split; [exact E|]. split; [reflexivity|intros k Hk; lia].
Qed.
Lemma order_ok file n : (forall i, i < n -> (mfi_offset file i <= N.of_nat (length file))%N) ->
  (forall i j, i < n -> j < i -> (0 < mfi_packed file i)%N -> mfi_offset file j <> 0%N -> (forall k, j < k < i -> mfi_offset file k = 0%N) -> (mfi_offset file j <= mfi_offset file i)%N) <-> (forall i, i < n -> entry_ok file i).
Proof.
  intros HO. split.
  - intros H i Hi. split; [|exact (HO i Hi)]. intros P. destruct (last_off_spec file i) as [[A _]|(j & A & B & C & D)]; [rewrite A; apply N.le_0_l|]. rewrite C. apply (H i j); assumption.
  - intros H i j Hi Hj P Hz Hk. destruct (H i Hi) as [A _]. specialize (A P). destruct (last_off_spec file i) as [[_ B]|(j' & A' & B & C & D)]; [specialize (B j Hj); congruence|].
    rewrite C in A. destruct (Nat.lt_trichotomy j j') as [X|[X|X]]; [exfalso; apply B; apply Hk; lia|subst j'; exact A|exfalso; apply Hz; apply D; lia].
Qed.

(* the flux words *)
Lemma words_cons a b c d t : mfi_words (a :: b :: c :: d :: t) = (a + 256 * b + 65536 * (c + 256 * d))%N :: mfi_words t.
Proof.
  unfold mfi_words. assert (E : length (a :: b :: c :: d :: t) / 4 = S (length t / 4)).
  { cbn [length]. symmetry. apply (Nat.div_unique _ 4 _ (length t mod 4)); [apply Nat.mod_upper_bound; discriminate|]. pose proof (Nat.div_mod (length t) 4 ltac:(discriminate)). lia. }
  rewrite E. cbn [seq map]. f_equal. rewrite <- seq_shift, map_map. apply map_ext. intros k. unfold le32_at, le16_at, byte_at. replace (4 * S k) with (S (S (S (S (4 * k))))) by lia. reflexivity.
Qed.
Lemma words_ind (P : list N -> Prop) : (forall l, length l < 4 -> P l) -> (forall a b c d t, P t -> P (a :: b :: c :: d :: t)) -> forall l, P l.
Proof.
  intros H1 H2. assert (G : forall n l, length l < n -> P l); [|intros l; apply (G (S (length l))); lia]. induction n as [|n IH]; intros l Hl; [lia|].
  destruct l as [|a [|b [|c [|d t]]]]; try (apply H1; cbn; lia). apply H2. apply IH. cbn [length] in Hl. lia.
Qed.
Lemma words_short l : length l < 4 -> mfi_words l = [] /\ mfi_fluxes l = Ok [].
Proof. intros H. split; [unfold mfi_words; rewrite Nat.div_small by exact H; reflexivity|]. destruct l as [|a [|b [|c [|d t]]]]; try reflexivity. cbn [length] in H. lia. Qed.
Lemma fluxes_spec l : (Forall (fun w => w < 2 ^ 30)%N (mfi_words l) /\ mfi_fluxes l = Ok (filter (fun w => w <? 2 ^ 28)%N (mfi_words l))) \/
  (Exists (fun w => 2 ^ 30 <= w)%N (mfi_words l) /\ mfi_fluxes l = Panic).
Proof.
  induction l as [l Hl|a b c d t IH] using words_ind; [destruct (words_short l Hl) as [-> ->]; left; split; [constructor|reflexivity]|].
  rewrite words_cons. cbn [mfi_fluxes filter]. set (w := (a + 256 * b + 65536 * (c + 256 * d))%N). change 0x10000000%N with (2 ^ 28)%N.
  pose proof (N.div_mod w (2 ^ 28) ltac:(discriminate)) as D. pose proof (N.mod_lt w (2 ^ 28) ltac:(discriminate)) as U. change (2 ^ 30)%N with (4 * 2 ^ 28)%N. change (2 ^ 30)%N with (4 * 2 ^ 28)%N in IH. set (p := (2 ^ 28)%N) in *. assert (Hp : (0 < p)%N) by reflexivity. clearbody p. set (q := (w / p)%N) in *. set (r := (w mod p)%N) in *. clearbody q r.
  destruct (N.ltb_spec 3 q) as [A|A].
  - right. split; [|reflexivity]. constructor. nia.
  - destruct IH as [[F E]|[F E]]; rewrite E; cbn [obind].
    + left. split; [constructor; [nia|exact F]|]. destruct (N.eqb_spec q 0) as [->|Z]; destruct (N.ltb_spec w p) as [B|B]; try reflexivity; exfalso; nia.
    + right. split; [apply Exists_cons_tl; exact F|reflexivity].
Qed.

(* the data of the tracks *)
Definition data_of (inflate : list N -> nat -> option (list N)) (file : list N) (i : nat) : outcome (list N) :=
  if (mfi_offset file i =? 0)%N || (mfi_packed file i =? 0)%N || (mfi_size file i =? 0)%N then Ok []
  else
    let! (packed, _) := read_exact (N.to_nat (mfi_packed file i)) (skipn (N.to_nat (mfi_offset file i)) file) in
    match inflate packed (N.to_nat (mfi_size file i)) with Some buf => Ok buf | None => Err ImageCorruptError end.
Lemma data_run inflate file heads c : 1 <= heads -> 1 <= c -> forall k i, i + k = c * heads ->
  mfi_data inflate file (mkCh (N.of_nat c) (N.of_nat heads)) (ch_at heads i) (map (entry_at file) (seq i k)) = omapM (fun j => let! x := data_of inflate file j in Ok (ch_at heads j, x)) (seq i k).
Proof.
  intros Hh Hc. induction k as [|k IH]; intros i Hi; [reflexivity|]. cbn [seq map mfi_data omapM]. fold (data_of inflate file i). cbn [entry_at me_offset me_comp me_uncomp].
  change (if (mfi_offset file i =? 0)%N || (mfi_packed file i =? 0)%N || (mfi_size file i =? 0)%N then _ else _) with (data_of inflate file i).
  destruct (data_of inflate file i) as [x| |]; cbn [obind]; [|reflexivity|reflexivity]. destruct k as [|k].
  - reflexivity.
  - rewrite seek_any by lia. rewrite IH by lia. reflexivity.
Qed.
Lemma data_no_panic inflate file i : data_of inflate file i <> Panic.
Proof.
  unfold data_of. destruct (_ || _); [discriminate|]. destruct (read_exact _ _) as [[p r]| |] eqn:E; cbn [obind]; [destruct (inflate _ _); discriminate|discriminate|]. exfalso. unfold read_exact in E. destruct (_ <? _); discriminate.
Qed.
Lemma unformatted_dec file i : (mfi_offset file i =? 0)%N || (mfi_packed file i =? 0)%N || (mfi_size file i =? 0)%N = true <-> mfi_unformatted file i.
Proof. unfold mfi_unformatted. rewrite !orb_true_iff, !N.eqb_eq. tauto. Qed.
Lemma data_times inflate file i times : mfi_times inflate file i times <-> exists data, data_of inflate file i = Ok data /\ mfi_fluxes data = Ok times.
Proof.
  unfold mfi_times, data_of. destruct (_ || _) eqn:U.
  - apply (proj1 (unformatted_dec file i)) in U. split.
    + intros [[_ ->]|[N _]]; [exists []; split; reflexivity|contradiction].
    + intros (data & A & B). left. split; [exact U|]. injection A as <-. injection B as <-. reflexivity.
  - assert (NU : ~ mfi_unformatted file i) by (intros X; apply (proj2 (unformatted_dec file i)) in X; congruence). assert (P : 0 < N.to_nat (mfi_packed file i)) by (unfold mfi_unformatted in NU; lia).
    rewrite exact_pos by exact P. split.
    + intros [[X _]|(_ & L & data & A & B & ->)]; [contradiction|]. exists data. replace (N.to_nat (mfi_offset file i) + N.to_nat (mfi_packed file i) <=? length file) with true by (symmetry; apply Nat.leb_le; lia). cbn [obind]. rewrite A. split; [reflexivity|].
      destruct (fluxes_spec data) as [[_ E]|[X _]]; [exact E|]. exfalso. apply Exists_exists in X. destruct X as (w & Hw & X). rewrite Forall_forall in B. specialize (B w Hw). lia.
    + intros (data & A & B). right. split; [exact NU|]. destruct (Nat.leb_spec (N.to_nat (mfi_offset file i) + N.to_nat (mfi_packed file i)) (length file)) as [L|L]; cbn [obind] in A; [|discriminate]. split; [lia|].
      destruct (inflate _ _) as [buf|] eqn:I; [|discriminate]. injection A as ->. exists data. split; [reflexivity|]. destruct (fluxes_spec data) as [[F E]|[_ E]]; [|congruence]. split; [exact F|]. rewrite B in E. injection E as ->. reflexivity.
Qed.
Lemma times_unique inflate file i t1 t2 : mfi_times inflate file i t1 -> mfi_times inflate file i t2 -> t1 = t2.
Proof. intros A B. apply (proj1 (data_times _ _ _ _)) in A, B. destruct A as (d1 & A1 & A2), B as (d2 & B1 & B2). assert (d1 = d2) by congruence. subst. congruence. Qed.

(* adding them *)
Lemma add_ok dec heads (dt : nat -> list N) tm bs : heads = 1 \/ heads = 2 -> forall k i d s, (forall j, i <= j < i + k -> mfi_fluxes (dt j) = Ok (tm j)) ->
  (forall j, i <= j < i + k -> dec (map tm (seq 0 j)) (ch_at heads j) [(tm j, 0%N)] = Ok (bs j)) -> wf d s -> flux_free d -> laid heads i (fun j => flux_track (ch_at heads j) (bs j)) s ->
  exists d' s', mfi_add dec (map tm (seq 0 i)) d (map (fun j => (ch_at heads j, dt j)) (seq i k)) = Ok d' /\ wf d' s' /\ laid heads (i + k) (fun j => flux_track (ch_at heads j) (bs j)) s'.
Proof.
  intros Hh. induction k as [|k IH]; intros i d s HF HD W F L.
  - exists d, s. split; [reflexivity|]. split; [exact W|]. rewrite Nat.add_0_r. exact L.
  - cbn [seq map mfi_add]. rewrite (HF i) by lia. cbn [obind]. destruct (flux_add_ok (dec (map tm (seq 0 i))) d s (ch_at heads i) [(tm i, 0%N)] (bs i) W F (ch_at_head heads i Hh) (HD i ltac:(lia))) as (d1 & E & W1 & F1 & _).
    rewrite E. cbn [obind]. assert (Ep : map tm (seq 0 i) ++ [tm i] = map tm (seq 0 (S i))) by (rewrite seq_S, map_app; reflexivity). rewrite Ep.
    destruct (IH (S i) d1 _ (fun j Hj => HF j ltac:(lia)) (fun j Hj => HD j ltac:(lia)) W1 F1 (laid_snoc heads i _ s Hh L)) as (d' & s' & E2 & W2 & L2). exists d', s'. split; [exact E2|]. split; [exact W2|].
    replace (i + S k) with (S i + k) by lia. exact L2.
Qed.
Lemma flux_add_head dec d ch revs d' : flux_add dec d ch revs = Ok d' -> (ch_h ch < 2)%N /\ exists bs, dec ch (synthesize revs) = Ok bs.
Proof.
  unfold flux_add, add_track_fluxstream. destruct (N.leb_spec 2 (ch_h ch)) as [A|A]; [discriminate|]. intros E. split; [exact A|]. destruct (res_rejects _ _); [discriminate|]. destruct (dec ch (synthesize revs)) as [bs| |]; [exists bs; reflexivity|discriminate|discriminate].
Qed.
Lemma add_inv dec heads (dt : nat -> list N) tm : forall k i d d', mfi_add dec (map tm (seq 0 i)) d (map (fun j => (ch_at heads j, dt j)) (seq i k)) = Ok d' -> (forall j t, i <= j < i + k -> mfi_fluxes (dt j) = Ok t -> t = tm j) ->
  forall j, i <= j < i + k -> (ch_h (ch_at heads j) < 2)%N /\ mfi_fluxes (dt j) = Ok (tm j) /\ exists bs, dec (map tm (seq 0 j)) (ch_at heads j) [(tm j, 0%N)] = Ok bs.
Proof.
  induction k as [|k IH]; intros i d d' E HT j Hj; [lia|]. cbn [seq map mfi_add] in E. destruct (mfi_fluxes (dt i)) as [t| |] eqn:Ef; cbn [obind] in E; try discriminate. pose proof (HT i t ltac:(lia) Ef) as ->.
  destruct (flux_add _ _ _ _) as [d1| |] eqn:Ea; cbn [obind] in E; try discriminate. destruct (Nat.eq_dec j i) as [->|N].
  - destruct (flux_add_head _ _ _ _ _ Ea) as [A B]. split; [exact A|]. split; [exact Ef|exact B].
  - assert (Ep : map tm (seq 0 i) ++ [tm i] = map tm (seq 0 (S i))) by (rewrite seq_S, map_app; reflexivity). rewrite Ep in E. apply (IH (S i) d1 d' E (fun j' t Hj' => HT j' t ltac:(lia))). lia.
Qed.
Lemma add_panic dec : forall tracks past d, mfi_add dec past d tracks = Panic -> (exists past ch revs, dec past ch revs = Panic) \/ exists t, In t tracks /\ mfi_fluxes (snd t) = Panic.
Proof.
  induction tracks as [|[ch data] tracks IH]; intros past d E; [discriminate|]. cbn [mfi_add] in E. destruct (mfi_fluxes data) as [t| |] eqn:Ef; cbn [obind] in E; [|discriminate|right; exists (ch, data); split; [left; reflexivity|exact Ef]].
  destruct (flux_add _ _ _ _) as [d1| |] eqn:Ea; cbn [obind] in E; [|discriminate|left; apply flux_add_panic in Ea; eauto]. destruct (IH _ _ E) as [A|(x & A & B)]; [left; exact A|right; exists x; split; [right; exact A|exact B]].
Qed.
Lemma omapM_pair inflate file heads : forall l ts, omapM (fun j => let! x := data_of inflate file j in Ok (ch_at heads j, x)) l = Ok ts ->
  (forall j, In j l -> exists x, data_of inflate file j = Ok x) /\ ts = map (fun j => (ch_at heads j, match data_of inflate file j with Ok x => x | _ => [] end)) l.
Proof.
  induction l as [|j l IH]; intros ts E; cbn [omapM] in E; [apply (f_equal (fun x => match x with Ok y => y | _ => ts end)) in E; subst ts; split; [intros j []|reflexivity]|].
  destruct (data_of inflate file j) as [x| |] eqn:Ed; cbn [obind] in E; try discriminate. destruct (omapM _ l) as [r| |] eqn:Er; cbn [obind] in E; try discriminate. destruct (IH r eq_refl) as [A B].
  apply (f_equal (fun x => match x with Ok y => y | _ => ts end)) in E. subst ts. split; [intros j' [<-|H]; [exists x; exact Ed|exact (A j' H)]|]. cbn [map]. rewrite Ed, B. reflexivity.
Qed.
Lemma omapM_pair_ok inflate file heads : forall l, (forall j, In j l -> exists x, data_of inflate file j = Ok x) ->
  omapM (fun j => let! x := data_of inflate file j in Ok (ch_at heads j, x)) l = Ok (map (fun j => (ch_at heads j, match data_of inflate file j with Ok x => x | _ => [] end)) l).
Proof.
  induction l as [|j l IH]; intros H; [reflexivity|]. cbn [omapM map]. destruct (H j (or_introl eq_refl)) as [x Ex]. rewrite Ex. cbn [obind]. rewrite IH by (intros j' Hj'; apply H; right; exact Hj'). reflexivity.
Qed.
Lemma omapM_pair_panic inflate file heads : forall l, omapM (fun j => let! x := data_of inflate file j in Ok (ch_at heads j, x)) l <> Panic.
Proof.
  induction l as [|j l IH]; [discriminate|]. cbn [omapM]. destruct (data_of inflate file j) as [x| |] eqn:Ed; cbn [obind]; [|discriminate|exfalso; exact (data_no_panic _ _ _ Ed)]. destruct (omapM _ l) as [r| |]; cbn [obind]; [discriminate|discriminate|congruence].
Qed.
(* the header *)
Definition mfi_after (inflate : list N -> nat -> option (list N)) (dec : MfiDecoder) (d : DiskImage) (file : list N) : outcome DiskImage :=
  if negb (id_eqb (bytes_at file 0 15) mfi_signature) then Err UnsupportedFormat
  else if negb (mfi_form_known (bytes_at file 24 4)) then Err UnsupportedFormat
  else
    let geom := mkCh (le32_at file 16 mod 65536) (le32_at file 20 mod 256) in
    if (ch_c geom =? 0)%N || (ch_h geom =? 0)%N then Err ImageCorruptError
    else
      let! entries := mfi_table (N.to_nat (ch_c geom * ch_h geom)) geom None (N.of_nat (length file)) 0 (skipn 32 file) in
      let! tracks := mfi_data inflate file geom (mkCh 0 0) entries in
      let! d := mfi_add dec [] d tracks in
      Ok (with_geom d geom).
Lemma mfi_load_after inflate dec d file : mfi_load_image inflate dec d file = if 32 <=? length file then mfi_after inflate dec d file else Err IoError.
Proof.
  unfold mfi_load_image. change file with (skipn 0 file) at 1. rewrite exact_pos by lia. destruct (Nat.leb_spec 32 (length file)) as [L|L].
  - replace (0 + 16 <=? length file) with true by (symmetry; apply Nat.leb_le; lia). cbn [obind]. change (0 + 16) with 16. rewrite le32_pos. replace (16 + 4 <=? length file) with true by (symmetry; apply Nat.leb_le; lia). cbn [obind].
    rewrite le32_pos. change (16 + 4 + 4) with 24. replace (24 <=? length file) with true by (symmetry; apply Nat.leb_le; lia). cbn [obind]. rewrite exact_pos by lia. change (24 + 4) with 28. replace (28 <=? length file) with true by (symmetry; apply Nat.leb_le; lia). cbn [obind].
    rewrite exact_pos by lia. change (28 + 4) with 32. replace (32 <=? length file) with true by (symmetry; apply Nat.leb_le; lia). cbn [obind]. change (16 + 4) with 20.
    unfold mfi_after, bytes_at. rewrite firstn_firstn. change (Nat.min 15 16) with 15. unfold as_u16, as_u8. change 0x3FFFFFFF%N with (N.ones 30). rewrite N.land_ones.
    replace ((le32_at file 16 mod 2 ^ 30) mod 65536)%N with (le32_at file 16 mod 65536)%N; [reflexivity|].
    generalize (le32_at file 16). intros x. change (2 ^ 30)%N with (65536 * 16384)%N. rewrite N.mod_mul_r by discriminate. rewrite N.add_mod by discriminate. rewrite N.mul_comm, N.mod_mul by discriminate. rewrite N.add_0_r, !N.mod_mod by discriminate. reflexivity.
  - destruct (0 + 16 <=? length file); cbn [obind]; [|reflexivity]. rewrite le32_pos. destruct (_ <=? length file); cbn [obind]; [|reflexivity]. rewrite le32_pos. destruct (_ <=? length file); cbn [obind]; [|reflexivity].
    rewrite exact_pos by lia. destruct (_ <=? length file); cbn [obind]; [|reflexivity]. rewrite exact_pos by lia. replace (0 + 16 + 4 + 4 + 4 + 4 <=? length file) with false by (symmetry; apply Nat.leb_gt; lia). reflexivity.
Qed.
Lemma mfi_times_unique inflate file i a b : mfi_times inflate file i a -> mfi_times inflate file i b -> a = b.
Proof.
  intros [[U ->]|(U & _ & x & Ex & _ & ->)] [[V ->]|(V & _ & y & Ey & _ & ->)]; [reflexivity|contradiction|contradiction|]. rewrite Ex in Ey. injection Ey as ->. reflexivity.
Qed.
