(* Scp_proofs.v - the SuperCard Pro loader. *)
From Verif Require Import Base Base_lemmas Chs_model BitRing_model Mfm_model Types_model System34_model MetaSector_model BitStream_model
  DiskImage_model DiskImage_spec DiskImage_proofs Raw_model F86_model Tc_model Tc_proofs Hxc_model Hxc_proofs Layout_spec Pll_model Flux_model Flux_spec Flux_proofs Scp_model Scp_spec.
From Coq Require Import Lia.
Import ListNotations.
Local Open Scope nat_scope.

(* ---- flux words ---- *)
Lemma convert_zeros : forall z acc data, scp_convert acc (repeat 0%N z ++ data) = scp_convert (acc + 65535 * N.of_nat z) data.
Proof.
  induction z as [|z IH]; intros acc data; [cbn [repeat app]; rewrite N.mul_0_r, N.add_0_r; reflexivity|].
  cbn [repeat app scp_convert]. change (0 =? 0)%N with true. cbn iota. rewrite IH. f_equal. lia.
Qed.
Lemma convert_flux fluxes k : Forall (fun f => snd f <> 0%N) fluxes ->
  scp_convert 0 (flat_map (fun f => repeat 0%N (fst f) ++ [snd f]) fluxes ++ repeat 0%N k) = map (fun f => snd f + 65535 * N.of_nat (fst f))%N fluxes.
Proof.
  induction fluxes as [|[z d] fs IH]; intros HF.
  - cbn [flat_map app map]. rewrite <- (app_nil_r (repeat _ _)), convert_zeros. reflexivity.
  - cbn [flat_map map fst snd]. rewrite <- !app_assoc, convert_zeros. cbn [app scp_convert]. pose proof (Forall_inv HF) as Hd. cbn [snd] in Hd.
    replace (d =? 0)%N with false by (symmetry; apply N.eqb_neq; exact Hd). rewrite IH by exact (Forall_inv_tail HF). f_equal.
Qed.
Lemma words_split : forall words : list N, exists fluxes k, words = flat_map (fun f => repeat 0%N (fst f) ++ [snd f]) fluxes ++ repeat 0%N k /\ Forall (fun f : nat * N => snd f <> 0%N) fluxes.
Proof.
  induction words as [|w ws (fs & k & E & F)]; [exists [], 0; split; [reflexivity|constructor]|].
  destruct (N.eq_dec w 0) as [->|Hw].
  - destruct fs as [|[z d] fs].
    + exists [], (S k). cbn in *. rewrite E. split; [reflexivity|constructor].
    + exists ((S z, d) :: fs), k. rewrite E. split; [reflexivity|]. constructor; [exact (Forall_inv F)|exact (Forall_inv_tail F)].
  - exists ((0, w) :: fs), k. rewrite E. split; [reflexivity|]. constructor; [exact Hw|exact F].
Qed.
Lemma convert_words words times : flux_words 65535 words times <-> scp_convert 0 words = times.
Proof.
  split.
  - intros (fs & k & -> & F & ->). apply convert_flux. exact F.
  - intros <-. destruct (words_split words) as (fs & k & -> & F). exists fs, k. split; [reflexivity|]. split; [exact F|]. apply convert_flux. exact F.
Qed.

(* ---- tables ---- *)
Lemma table_pos n l p : read_table read_be16 n (skipn p l) =
  if (n =? 0) || (p + 2 * n <=? length l) then Ok (map (fun k => be16_at l (p + 2 * k)) (seq 0 n), skipn (p + 2 * n) l) else Err IoError.
Proof.
  destruct (Nat.eqb_spec n 0) as [->|Hn]; [cbn [orb read_table seq map]; rewrite Nat.mul_0_r, Nat.add_0_r; reflexivity|]. cbn [orb].
  destruct (Nat.leb_spec (p + 2 * n) (length l)) as [A|A]; [apply table_read; [exact be_reader|exact A]|].
  destruct (Nat.le_gt_cases p (length l)) as [B|B]; [apply (table_short _ _ be_reader); assumption|].
  rewrite skipn_all2 by lia. destruct n; [lia|]. reflexivity.
Qed.
Definition hdr (file : list N) (p r : nat) : N * N * N := (scp_index file p r, scp_length file p r, le32_at file (p + 4 + 12 * r + 8)).
Lemma headers_pos file p : forall n r, p + 4 + 12 * r <= length file -> scp_rev_headers n (skipn (p + 4 + 12 * r) file) =
  if p + 4 + 12 * (r + n) <=? length file then Ok (map (hdr file p) (seq r n)) else Err IoError.
Proof.
  induction n as [|n IH]; intros r H.
  - cbn [scp_rev_headers seq map]. rewrite Nat.add_0_r. replace (_ <=? _) with true by (symmetry; apply Nat.leb_le; exact H). reflexivity.
  - cbn [scp_rev_headers]. set (q := p + 4 + 12 * r) in *. rewrite le32_pos.
    destruct (Nat.leb_spec (p + 4 + 12 * (r + S n)) (length file)) as [A|A].
    + rewrite step_ok by (apply Nat.leb_le; lia). rewrite le32_pos, step_ok by (apply Nat.leb_le; lia). rewrite le32_pos, step_ok by (apply Nat.leb_le; lia).
      replace (q + 4 + 4 + 4) with (p + 4 + 12 * S r) by lia. rewrite IH by lia.
      replace (p + 4 + 12 * (S r + n) <=? length file) with true by (symmetry; apply Nat.leb_le; lia). cbn [obind seq map]. unfold hdr at 2, scp_index, scp_length. fold q.
      rewrite <- Nat.add_assoc. reflexivity.
    + destruct (q + 4 <=? length file); cbn [obind]; [|reflexivity]. rewrite le32_pos. destruct (q + 4 + 4 <=? length file); cbn [obind]; [|reflexivity].
      rewrite le32_pos. destruct (Nat.leb_spec (q + 4 + 4 + 4) (length file)) as [B|B]; cbn [obind]; [|reflexivity].
      replace (q + 4 + 4 + 4) with (p + 4 + 12 * S r) in * by lia. rewrite IH by lia.
      replace (p + 4 + 12 * (S r + n) <=? length file) with false by (symmetry; apply Nat.leb_gt; lia). reflexivity.
Qed.
Definition rev_of (file : list N) (res : N) (p r : nat) : Rev :=
  (map (fun k => k * res)%N (scp_convert 0 (scp_words file p r)), (scp_index file p r * 25)%N).
Definition rev_inside (file : list N) (p r : nat) : bool :=
  (scp_length file p r =? 0)%N || (N.of_nat (scp_data file p r) + 2 * scp_length file p r <=? N.of_nat (length file))%N.
Lemma revs_cons file p res r n : scp_revs file (N.of_nat p) res (map (hdr file p) (seq r (S n))) =
  if (0x100000000 <=? scp_index file p r * 25)%N then Panic else
  if rev_inside file p r then let! rs := scp_revs file (N.of_nat p) res (map (hdr file p) (seq (S r) n)) in Ok (rev_of file res p r :: rs)
  else Err IoError.
Proof.
  cbn [seq map scp_revs]. unfold hdr at 1. destruct (_ <=? _)%N; [reflexivity|]. rewrite table_pos.
  replace (N.to_nat (N.of_nat p + le32_at file (p + 4 + 12 * r + 8))) with (scp_data file p r) by (unfold scp_data; lia).
  assert (E : ((N.to_nat (scp_length file p r) =? 0) || (scp_data file p r + 2 * N.to_nat (scp_length file p r) <=? length file))%nat = rev_inside file p r).
  { unfold rev_inside. f_equal.
    - destruct (Nat.eqb_spec (N.to_nat (scp_length file p r)) 0) as [A|A]; symmetry; [apply N.eqb_eq; lia|apply N.eqb_neq; lia].
    - destruct (Nat.leb_spec (scp_data file p r + 2 * N.to_nat (scp_length file p r)) (length file)) as [A|A]; symmetry; [apply N.leb_le; lia|apply N.leb_gt; lia]. }
  rewrite E. destruct (rev_inside file p r); [|reflexivity]. cbn [obind]. reflexivity.
Qed.
Definition rev_ok (file : list N) (p r : nat) : Prop :=
  (scp_index file p r * 25 < 2 ^ 32)%N /\ (0 < scp_length file p r -> N.of_nat (scp_data file p r) + 2 * scp_length file p r <= N.of_nat (length file))%N.
Lemma inside_ok file p r : rev_inside file p r = true <-> (0 < scp_length file p r -> N.of_nat (scp_data file p r) + 2 * scp_length file p r <= N.of_nat (length file))%N.
Proof.
  unfold rev_inside. rewrite Bool.orb_true_iff, N.eqb_eq, N.leb_le. set (a := scp_length file p r). set (b := scp_data file p r). clearbody a b. clear. lia.
Qed.
Lemma revs_ok file p res : forall n r, (forall k, r <= k < r + n -> rev_ok file p k) ->
  scp_revs file (N.of_nat p) res (map (hdr file p) (seq r n)) = Ok (map (rev_of file res p) (seq r n)).
Proof.
  induction n as [|n IH]; intros r H; [reflexivity|]. rewrite revs_cons. destruct (H r ltac:(lia)) as [A B].
  replace (0x100000000 <=? _)%N with false by (symmetry; apply N.leb_gt; exact A). apply inside_ok in B. rewrite B, IH; [reflexivity|]. intros k Hk. apply H. lia.
Qed.
Lemma revs_inv file p res : forall n r rs, scp_revs file (N.of_nat p) res (map (hdr file p) (seq r n)) = Ok rs -> forall k, r <= k < r + n -> rev_ok file p k.
Proof.
  induction n as [|n IH]; intros r rs E k Hk; [lia|]. rewrite revs_cons in E. destruct (N.leb_spec 0x100000000 (scp_index file p r * 25)) as [A|A]; [discriminate|].
  destruct (rev_inside file p r) eqn:B; [|discriminate]. destruct (scp_revs _ _ _ _) as [rs1| |] eqn:E1; try discriminate.
  destruct (Nat.eq_dec k r) as [->|D]; [split; [exact A|apply inside_ok; exact B]|]. apply (IH (S r) rs1 E1). lia.
Qed.
Lemma revs_panic file p res : forall n r, scp_revs file (N.of_nat p) res (map (hdr file p) (seq r n)) = Panic -> exists k, r <= k < r + n /\ (2 ^ 32 <= scp_index file p k * 25)%N.
Proof.
  induction n as [|n IH]; intros r E; [discriminate|]. rewrite revs_cons in E. destruct (N.leb_spec 0x100000000 (scp_index file p r * 25)) as [A|A].
  - exists r. split; [lia|exact A].
  - destruct (rev_inside file p r) eqn:B; [|discriminate]. destruct (scp_revs _ _ _ _) as [rs1| |] eqn:E1; try discriminate.
    destruct (IH (S r) E1) as (k & K1 & K2). exists k. split; [lia|exact K2].
Qed.

(* ---- one track ---- *)
Definition one_track (file : list N) (revs : nat) (res off : N) : outcome (list Rev) :=
  let! (id, rest) := read_exact 4 (skipn (N.to_nat off) file) in
  if negb (forallb (fun p => fst p =? snd p)%N (combine (firstn 3 id) [0x54; 0x52; 0x4B]%N)) then Err ImageCorruptError else
  let! hs := scp_rev_headers revs rest in
  scp_revs file off res hs.
Lemma first3 file p k : 3 <= k -> firstn 3 (bytes_at file p k) = bytes_at file p 3.
Proof. intros H. unfold bytes_at. rewrite firstn_firstn. f_equal. lia. Qed.
Lemma bytes_len file p k : p + k <= length file -> length (bytes_at file p k) = k.
Proof. intros H. unfold bytes_at. rewrite firstn_length, skipn_length. lia. Qed.
Lemma one_track_ok file revs res p : scp_track file p revs -> one_track file revs res (N.of_nat p) = Ok (map (rev_of file res p) (seq 0 revs)).
Proof.
  intros [A B C]. unfold one_track. rewrite Nnat.Nat2N.id, exact_pos by lia. rewrite step_ok by inside. rewrite first3 by lia.
  assert (M : forallb (fun p => fst p =? snd p)%N (combine (bytes_at file p 3) [0x54; 0x52; 0x4B]%N) = true).
  { apply magic_eq; [rewrite bytes_len by lia; reflexivity|exact B]. }
  rewrite M. cbn [negb]. pose proof (headers_pos file p revs 0) as H. rewrite Nat.mul_0_r, Nat.add_0_r in H. rewrite H by lia. cbn [Nat.add].
  rewrite step_ok by inside. apply revs_ok. intros k Hk. apply C. lia.
Qed.
Lemma one_track_inv file revs res p rs : one_track file revs res (N.of_nat p) = Ok rs -> scp_track file p revs.
Proof.
  intros E. unfold one_track in E. rewrite Nnat.Nat2N.id, exact_pos in E by lia. destruct (Nat.leb_spec (p + 4) (length file)) as [A|A]; [|discriminate]. cbn [obind] in E.
  rewrite first3 in E by lia. destruct (forallb _ _) eqn:M; [|discriminate]. cbn [negb] in E.
  pose proof (headers_pos file p revs 0) as H. rewrite Nat.mul_0_r, Nat.add_0_r in H. rewrite H in E by lia. cbn [Nat.add] in E.
  destruct (Nat.leb_spec (p + 4 + 12 * revs) (length file)) as [B|B]; [|discriminate]. cbn [obind] in E.
  constructor; [exact B| |].
  - apply magic_eq in M; [exact M|]. rewrite bytes_len by lia. reflexivity.
  - intros r Hr. apply (revs_inv _ _ _ _ _ _ E). lia.
Qed.
Lemma one_track_panic file revs res p : one_track file revs res (N.of_nat p) = Panic -> exists r, r < revs /\ (2 ^ 32 <= scp_index file p r * 25)%N.
Proof.
  intros E. unfold one_track in E. rewrite Nnat.Nat2N.id, exact_pos in E by lia. destruct (Nat.leb_spec (p + 4) (length file)) as [A|A]; [|discriminate]. cbn [obind] in E.
  destruct (forallb _ _) eqn:M; [|discriminate]. cbn [negb] in E.
  pose proof (headers_pos file p revs 0) as H. rewrite Nat.mul_0_r, Nat.add_0_r in H. rewrite H in E by lia. cbn [Nat.add] in E.
  destruct (Nat.leb_spec (p + 4 + 12 * revs) (length file)) as [B|B]; [|discriminate]. cbn [obind] in E.
  destruct (revs_panic _ _ _ _ _ E) as (k & K1 & K2). exists k. split; [lia|exact K2].
Qed.
Lemma tracks_cons dec file geom revs res off offs st ch d : scp_tracks dec file geom revs res (off :: offs) st ch d =
  match ch_iter_next geom st with
  | (Some ch, st) => let! rs := one_track file revs res off in let! d := flux_add dec d ch rs in scp_tracks dec file geom revs res offs st ch d
  | (None, _) => Panic
  end.
Proof.
  cbn [scp_tracks]. destruct (ch_iter_next geom st) as [[c|] st']; [|reflexivity]. unfold one_track.
  destruct (read_exact 4 _) as [[id rest]| |]; cbn [obind]; [|reflexivity|reflexivity]. destruct (negb _); [reflexivity|].
  destruct (scp_rev_headers revs rest) as [hs| |]; cbn [obind]; [|reflexivity|reflexivity]. destruct (scp_revs _ _ _ _); reflexivity.
Qed.

(* ---- all tracks ---- *)
Section T.
Context (dec : Decoder) (file : list N) (heads revs : nat) (res : N) (Hh : heads = 1 \/ heads = 2).
Let pos i := N.to_nat (scp_entry file i).
Let revs_at i := map (rev_of file res (pos i)) (seq 0 revs).
Let go n i ch d := scp_tracks dec file (mkCh 84 (N.of_nat heads)) revs res (map (scp_entry file) (seq i n)) (iter_at heads i) ch d.
Lemma pos_entry i : scp_entry file i = N.of_nat (pos i). Proof. unfold pos. lia. Qed.
Lemma go_step n i ch d : go (S n) i ch d =
  if i <? 84 * heads then let! rs := one_track file revs res (scp_entry file i) in let! d := flux_add dec d (ch_at heads i) rs in go n (S i) (ch_at heads i) d
  else match ch_iter_next (mkCh 84 (N.of_nat heads)) (iter_at heads i) with (Some c, st) => let! rs := one_track file revs res (scp_entry file i) in let! d := flux_add dec d c rs in scp_tracks dec file (mkCh 84 (N.of_nat heads)) revs res (map (scp_entry file) (seq (S i) n)) st c d | (None, _) => Panic end.
Proof.
  unfold go. cbn [seq map]. rewrite tracks_cons. destruct (Nat.ltb_spec i (84 * heads)) as [A|A]; [|reflexivity].
  change 84%N with (N.of_nat 84). rewrite (iter_step heads 84 i Hh A). reflexivity.
Qed.
Lemma go_ok bs : forall n i ch d s, i + n <= 84 * heads -> (forall k, i <= k < i + n -> scp_track file (pos k) revs) ->
  (forall k, i <= k < i + n -> dec (ch_at heads k) (synthesize (revs_at k)) = Ok (bs k)) ->
  wf d s -> flux_free d -> laid heads i (fun k => flux_track (ch_at heads k) (bs k)) s ->
  exists d' s', go n i ch d = Ok (match n with O => ch | S _ => ch_at heads (i + n - 1) end, d') /\ wf d' s' /\ laid heads (i + n) (fun k => flux_track (ch_at heads k) (bs k)) s'.
Proof.
  induction n as [|n IH]; intros i ch d s HL HT HD W F L.
  - exists d, s. rewrite Nat.add_0_r. split; [reflexivity|]. split; assumption.
  - rewrite go_step. replace (i <? 84 * heads) with true by (symmetry; apply Nat.ltb_lt; lia).
    rewrite pos_entry, one_track_ok by (apply HT; lia). cbn [obind].
    destruct (flux_add_ok dec d s (ch_at heads i) (revs_at i) (bs i) W F (ch_at_head heads i Hh) (HD i ltac:(lia))) as (d1 & E1 & W1 & F1 & _).
    unfold revs_at in E1. rewrite E1. cbn [obind]. cbn [ch_at ch_h] in W1.
    destruct (IH (S i) (ch_at heads i) d1 _ ltac:(lia) ltac:(intros k Hk; apply HT; lia) ltac:(intros k Hk; apply HD; lia) W1 F1 (laid_snoc heads i _ s Hh L)) as (d2 & s2 & E2 & W2 & L2).
    exists d2, s2. rewrite E2. replace (S i + n) with (i + S n) in * by lia. split; [|split; assumption]. do 2 f_equal.
    destruct n; [f_equal; lia|reflexivity].
Qed.
Lemma go_inv : forall n i ch d s x, i <= 84 * heads -> go n i ch d = Ok x -> wf d s -> flux_free d ->
  i + n <= 84 * heads /\ (forall k, i <= k < i + n -> scp_track file (pos k) revs) /\
  (forall k, i <= k < i + n -> exists bs, dec (ch_at heads k) (synthesize (revs_at k)) = Ok bs).
Proof.
  induction n as [|n IH]; intros i ch d s x HL E W F; [split; [lia|split; intros k Hk; lia]|].
  rewrite go_step in E. destruct (Nat.ltb_spec i (84 * heads)) as [A|A].
  - destruct (one_track _ _ _ _) as [rs| |] eqn:E1; cbn [obind] in E; try discriminate. rewrite pos_entry in E1. pose proof (one_track_inv _ _ _ _ _ E1) as T.
    pose proof (one_track_ok file revs res _ T) as E1'. rewrite E1 in E1'. injection E1' as ->.
    destruct (flux_add _ _ _ _) as [d1| |] eqn:E2; cbn [obind] in E; try discriminate.
    destruct (flux_add_inv _ _ _ _ _ _ W F (ch_at_head heads i Hh) E2) as (bs & D & W1 & F1 & _).
    destruct (IH (S i) _ _ _ _ ltac:(lia) E W1 F1) as (B & C & G). split; [lia|]. split.
    + intros k Hk. destruct (Nat.eq_dec k i) as [->|Dk]; [exact T|apply C; lia].
    + intros k Hk. destruct (Nat.eq_dec k i) as [->|Dk]; [exists bs; exact D|apply G; lia].
  - change 84%N with (N.of_nat 84) in E. rewrite (iter_end heads 84 i Hh ltac:(lia) A HL) in E. discriminate.
Qed.
Lemma go_panic : forall n i ch d, i <= 84 * heads -> go n i ch d = Panic ->
  84 * heads < i + n \/ (exists k r, i <= k < i + n /\ r < revs /\ (2 ^ 32 <= scp_index file (pos k) r * 25)%N) \/ (exists k rs, i <= k < i + n /\ dec (ch_at heads k) rs = Panic).
Proof.
  induction n as [|n IH]; intros i ch d HL E; [discriminate|].
  rewrite go_step in E. destruct (Nat.ltb_spec i (84 * heads)) as [A|A]; [|left; lia].
  destruct (one_track _ _ _ _) as [rs| |] eqn:E1; cbn [obind] in E; try discriminate.
  - destruct (flux_add _ _ _ _) as [d1| |] eqn:E2; cbn [obind] in E; try discriminate.
    + destruct (IH (S i) _ _ ltac:(lia) E) as [B|[(k & r & B1 & B2)|(k & r & B1 & B2)]]; [left; lia|right; left; exists k, r; split; [lia|exact B2]|right; right; exists k, r; split; [lia|exact B2]].
    + right. right. apply flux_add_panic in E2. exists i, (synthesize rs). split; [lia|exact E2].
  - right. left. rewrite pos_entry in E1. destruct (one_track_panic _ _ _ _ E1) as (r & R1 & R2). exists i, r. split; [lia|split; assumption].
Qed.
End T.

(* ---- the offset table ---- *)
Lemma offsets_ok file : forall n i k, k <= n -> (forall j, i <= j < i + k -> (scp_entry file (j - 1) < scp_entry file j < N.of_nat (length file))%N) ->
  1 <= i -> (k < n -> scp_entry file (i + k) = 0%N) -> 16 + 4 * (i + Nat.min n (k + 1)) <= length file ->
  scp_offsets n (skipn (16 + 4 * i) file) (scp_entry file (i - 1)) (N.of_nat (length file)) = Ok (map (scp_entry file) (seq i k)).
Proof.
  induction n as [|n IH]; intros i k Hk HR Hi He HL; [replace k with 0 by lia; reflexivity|].
  cbn [scp_offsets]. rewrite le32_pos, step_ok by inside. fold (scp_entry file i). destruct k as [|k].
  - rewrite Nat.add_0_r in He. rewrite He by lia. reflexivity.
  - destruct (HR i ltac:(lia)) as [A B]. replace (scp_entry file i =? 0)%N with false by (symmetry; apply N.eqb_neq; lia).
    replace (scp_entry file i <=? scp_entry file (i - 1))%N with false by (symmetry; apply N.leb_gt; lia).
    replace (N.of_nat (length file) <=? scp_entry file i)%N with false by (symmetry; apply N.leb_gt; lia). cbn [orb].
    replace (16 + 4 * i + 4) with (16 + 4 * S i) by lia.
    assert (E : scp_offsets n (skipn (16 + 4 * S i) file) (scp_entry file (S i - 1)) (N.of_nat (length file)) = Ok (map (scp_entry file) (seq (S i) k))).
    { apply IH; [lia|intros j Hj; apply HR; lia|lia| |lia]. intros Hk2. rewrite <- He by lia. f_equal. lia. }
    replace (S i - 1) with i in E by lia. rewrite E. reflexivity.
Qed.
Lemma offsets_inv file : forall n i os, 1 <= i -> scp_offsets n (skipn (16 + 4 * i) file) (scp_entry file (i - 1)) (N.of_nat (length file)) = Ok os ->
  exists k, k <= n /\ os = map (scp_entry file) (seq i k) /\ (forall j, i <= j < i + k -> (scp_entry file (j - 1) < scp_entry file j < N.of_nat (length file))%N) /\
    (k < n -> scp_entry file (i + k) = 0%N).
Proof.
  induction n as [|n IH]; intros i os Hi E; [injection E as <-; exists 0; split; [lia|split; [reflexivity|split; [intros; lia|lia]]]|].
  cbn [scp_offsets] in E. rewrite le32_pos in E. destruct (_ <=? length file) eqn:L; cbn [obind] in E; [|discriminate]. fold (scp_entry file i) in E.
  destruct (N.eqb_spec (scp_entry file i) 0) as [Z|Z].
  - injection E as <-. exists 0. split; [lia|]. split; [reflexivity|]. split; [intros; lia|]. intros _. rewrite Nat.add_0_r. exact Z.
  - destruct (N.leb_spec (scp_entry file i) (scp_entry file (i - 1))) as [A|A]; [discriminate|]. destruct (N.leb_spec (N.of_nat (length file)) (scp_entry file i)) as [B|B]; [discriminate|]. cbn [orb] in E.
    replace (16 + 4 * i + 4) with (16 + 4 * S i) in E by lia. destruct (scp_offsets _ _ _ _) as [os1| |] eqn:E1; try discriminate. injection E as <-.
    replace i with (S i - 1) in E1 at 2 by lia. destruct (IH (S i) os1 ltac:(lia) E1) as (k & K1 & -> & K2 & K3). exists (S k). split; [lia|]. split; [reflexivity|]. split.
    + intros j Hj. destruct (Nat.eq_dec j i) as [->|D]; [split; assumption|]. apply K2. lia.
    + intros H. rewrite <- K3 by lia. f_equal. lia.
Qed.
Lemma offsets_no_panic : forall n rest last size, scp_offsets n rest last size <> Panic.
Proof.
  induction n as [|n IH]; intros rest last size; [discriminate|]. cbn [scp_offsets]. destruct (read_le32 rest) as [[o r]| |] eqn:E; cbn [obind]; [|discriminate|].
  - destruct (o =? 0)%N; [discriminate|]. destruct (_ || _); [discriminate|]. specialize (IH r o size). destruct (scp_offsets n r o size); [discriminate|discriminate|congruence].
  - destruct rest as [|? [|? [|? [|? ?]]]]; discriminate.
Qed.
