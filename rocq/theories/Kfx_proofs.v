(* Kfx_proofs.v - the two passes over a stream. *)
From Verif Require Import Base Base_lemmas Chs_model BitRing_model Mfm_model Types_model System34_model MetaSector_model BitStream_model DiskImage_model Raw_model F86_model Hxc_model Flux_model Pll_model Kfx_model Kfx_spec.
From Coq Require Import Lia.
Import ListNotations.
Local Open Scope nat_scope.

Ltac tests := repeat match goal with
  | |- context [if (?a <=? ?b)%N then _ else _] => destruct (N.leb_spec a b); [try (exfalso; lia)|try (exfalso; lia)]
  | |- context [if (?a =? ?b)%N then _ else _] => destruct (N.eqb_spec a b); [try (exfalso; lia)|try (exfalso; lia)]
  end.
Lemma len2 {A} (l : list A) : length l = 2 -> exists a b, l = [a; b].
Proof. destruct l as [|a [|b [|]]]; intros H; try discriminate. eauto. Qed.
Lemma len4 {A} (l : list A) : length l = 4 -> exists a b c d, l = [a; b; c; d].
Proof. destruct l as [|a [|b [|c [|d [|]]]]]; intros H; try discriminate. eauto 6. Qed.
Lemma le16_enc l rest : length l = 2 -> read_le16 (l ++ rest) = Ok (le l, rest).
Proof. intros H. destruct (len2 l H) as (a & b & ->). cbn [app read_le16 le]. rewrite N.mul_0_r, N.add_0_r. reflexivity. Qed.
Lemma le32_enc l rest : length l = 4 -> read_le32 (l ++ rest) = Ok (le l, rest).
Proof. intros H. destruct (len4 l H) as (a & b & c & d & ->). cbn [app read_le32 le]. rewrite N.mul_0_r, N.add_0_r. reflexivity. Qed.
Lemma le16_dec rest v r : read_le16 rest = Ok (v, r) -> exists l, rest = l ++ r /\ length l = 2 /\ v = le l.
Proof. unfold read_le16. destruct rest as [|a [|b t]]; try discriminate. intros [= <- <-]. exists [a; b]. cbn [le]. rewrite N.mul_0_r, N.add_0_r. auto. Qed.
Lemma le32_dec rest v r : read_le32 rest = Ok (v, r) -> exists l, rest = l ++ r /\ length l = 4 /\ v = le l.
Proof. unfold read_le32. destruct rest as [|a [|b [|c [|d t]]]]; try discriminate. intros E. assert (E1 := f_equal (fun x => match x with Ok (_, y) => y | _ => t end) E). assert (E2 := f_equal (fun x => match x with Ok (y, _) => y | _ => 0%N end) E). cbn in E1, E2. subst r v. exists [a; b; c; d]. cbn [le]. rewrite N.mul_0_r, N.add_0_r. auto. Qed.
Lemma le32_cases rest : (exists e, read_le32 rest = Err e) \/ exists v r, read_le32 rest = Ok (v, r).
Proof. unfold read_le32. destruct rest as [|a [|b [|c [|d t]]]]; eauto. Qed.
Lemma le16_cases rest : (exists e, read_le16 rest = Err e) \/ exists v r, read_le16 rest = Ok (v, r).
Proof. unfold read_le16. destruct rest as [|a [|b t]]; eauto. Qed.

Lemma read_two_enc f status rest : length f = 6 -> length status = 4 -> exists p, read_two (f ++ status ++ rest) = Ok (p, le status, rest).
Proof.
  intros Hf Hs. replace f with (firstn 2 f ++ skipn 2 f) by apply firstn_skipn. rewrite <- app_assoc. unfold read_two.
  rewrite le16_enc by (rewrite firstn_length; lia). cbn [obind]. rewrite le32_enc by (rewrite skipn_length; lia). cbn [obind]. rewrite le32_enc by exact Hs. cbn [obind]. eauto.
Qed.
Lemma read_two_dec rest p x r : read_two rest = Ok (p, x, r) -> exists f status, rest = f ++ status ++ r /\ length f = 6 /\ length status = 4 /\ x = le status.
Proof.
  unfold read_two. intros E. destruct (read_le16 rest) as [[u r1]| |] eqn:E1; cbn [obind] in E; try discriminate.
  destruct (read_le32 r1) as [[v r2]| |] eqn:E2; cbn [obind] in E; try discriminate. destruct (read_le32 r2) as [[w r3]| |] eqn:E3; cbn [obind] in E; try discriminate.
  assert (w = x /\ r3 = r) as [-> ->] by (injection E; auto). destruct (le16_dec _ _ _ E1) as (a & -> & La & _). destruct (le32_dec _ _ _ E2) as (b & -> & Lb & _). destruct (le32_dec _ _ _ E3) as (c & -> & Lc & ->).
  exists (a ++ b), c. rewrite <- app_assoc, app_length. repeat split; try assumption. lia.
Qed.
Lemma read_index_enc size pos sample counter rest : length size = 2 -> length pos = 4 -> length sample = 4 -> length counter = 4 ->
  read_index (size ++ pos ++ sample ++ counter ++ rest) = Ok (le pos, le counter, rest).
Proof.
  intros A B C D. unfold read_index. rewrite le16_enc by exact A. cbn [obind]. rewrite le32_enc by exact B. cbn [obind]. rewrite le32_enc by exact C. cbn [obind].
  rewrite le32_enc by exact D. reflexivity.
Qed.
Lemma read_index_dec rest p x r : read_index rest = Ok (p, x, r) -> exists size pos sample counter,
  rest = size ++ pos ++ sample ++ counter ++ r /\ length size = 2 /\ length pos = 4 /\ length sample = 4 /\ length counter = 4 /\ p = le pos /\ x = le counter.
Proof.
  unfold read_index. intros E. destruct (read_le16 rest) as [[u r1]| |] eqn:E1; cbn [obind] in E; try discriminate.
  destruct (read_le32 r1) as [[v r2]| |] eqn:E2; cbn [obind] in E; try discriminate. destruct (read_le32 r2) as [[w r3]| |] eqn:E3; cbn [obind] in E; try discriminate.
  destruct (read_le32 r3) as [[y r4]| |] eqn:E4; cbn [obind] in E; try discriminate.
  assert (v = p /\ y = x /\ r4 = r) as (-> & -> & ->) by (injection E; auto). destruct (le16_dec _ _ _ E1) as (a & -> & La & _). destruct (le32_dec _ _ _ E2) as (b & -> & Lb & ->).
  destruct (le32_dec _ _ _ E3) as (c & -> & Lc & _). destruct (le32_dec _ _ _ E4) as (e & -> & Le & ->). exists a, b, c, e. auto 8.
Qed.
Lemma ascii_enc text rest : ~ In 0%N text -> read_ascii (text ++ 0%N :: rest) = (printable text, rest).
Proof.
  induction text as [|b t IH]; intros H; [reflexivity|]. cbn [app read_ascii]. destruct (N.eqb_spec b 0) as [->|]; [exfalso; apply H; left; reflexivity|].
  rewrite IH by (intros X; apply H; right; exact X). reflexivity.
Qed.
Lemma ascii_dec : forall rest, (exists text r, rest = text ++ 0%N :: r /\ ~ In 0%N text) \/ snd (read_ascii rest) = [].
Proof.
  induction rest as [|b t IH]; [right; reflexivity|]. cbn [read_ascii]. destruct (N.eqb_spec b 0) as [->|Hb]; [left; exists [], t; split; [reflexivity|intros []]|].
  destruct IH as [(text & r & -> & Hn)|E].
  - left. exists (b :: text), r. split; [reflexivity|]. intros [X|X]; [apply Hb; exact X|exact (Hn X)].
  - right. destruct (read_ascii t) as [s r]. exact E.
Qed.

(* ---- first pass ---- *)
Definition bscan (s : KfxIndex) (b : block) : KfxIndex :=
  match b with
  | BIndex _ pos _ counter =>
      mkKI (ki_offsets s ++ [le pos]) (match ki_last s with Some l => ki_times s ++ [wrapping_sub32 (le counter) l] | None => ki_times s end) (Some (le counter))
  | _ => s
  end.
Lemma osb_kind t : osb_of t = OsbInvalid /\ ~ In t [1; 2; 3; 4; 0x0D]%N \/ osb_of t = OsbStreamInfo /\ t = 1%N \/ osb_of t = OsbIndex /\ t = 2%N \/ osb_of t = OsbStreamEnd /\ t = 3%N \/ osb_of t = OsbKfInfo /\ t = 4%N \/ osb_of t = OsbEof /\ t = 0x0D%N.
Proof.
  unfold osb_of. destruct (N.eqb_spec t 1); [tauto|]. destruct (N.eqb_spec t 2); [tauto|]. destruct (N.eqb_spec t 3); [tauto|]. destruct (N.eqb_spec t 4); [tauto|]. destruct (N.eqb_spec t 0x0D); [tauto|].
  left. split; [reflexivity|]. cbn. intros [|[|[|[|[|[]]]]]]; congruence.
Qed.
Lemma osb_unknown t : ~ In t [1; 2; 3; 4; 0x0D]%N -> osb_of t = OsbInvalid.
Proof. intros H. destruct (osb_kind t) as [[E _]|[[_ E]|[[_ E]|[[_ E]|[[_ E]|[_ E]]]]]]; [exact E| | | | |]; exfalso; apply H; cbn; auto 8. Qed.
Lemma scan_enc b rest s : valid_block b -> kfx_index_block (block_bytes b ++ rest) s = Ok (false, rest, bscan s b).
Proof.
  destruct b; cbn [valid_block block_bytes app]; intros V; unfold kfx_index_block; cbn [read_u8 obind]; tests; cbn [skipn bscan]; try reflexivity; cbn [read_osb_block].
  - change (osb_of 1) with OsbStreamInfo. cbn iota. destruct V as [L _]. replace (fields ++ rest) with (firstn 6 fields ++ skipn 6 fields ++ rest) by (rewrite app_assoc, firstn_skipn; reflexivity).
    destruct (read_two_enc (firstn 6 fields) (skipn 6 fields) rest) as (p & ->); [rewrite firstn_length; lia|rewrite skipn_length; lia|]. reflexivity.
  - change (osb_of 2) with OsbIndex. cbn iota. destruct V as (A & B & C & D & _). rewrite <- !app_assoc. rewrite read_index_enc by assumption. reflexivity.
  - change (osb_of 3) with OsbStreamEnd. cbn iota. destruct V as (A & B & _). rewrite <- app_assoc. destruct (read_two_enc fields status rest A B) as (p & ->). reflexivity.
  - change (osb_of 4) with OsbKfInfo. cbn iota. destruct V as (A & _ & C). rewrite <- !app_assoc. rewrite le16_enc by exact A. cbn [obind app]. rewrite ascii_enc by exact C. reflexivity.
  - rewrite osb_unknown by exact (proj2 V). reflexivity.
Qed.
Lemma scan_eof rest s : kfx_index_block ([0x0D; 0x0D]%N ++ rest) s = Ok (true, rest, s). Proof. reflexivity. Qed.
Lemma bytes_tail a b : bytes_ok (a ++ b) = true -> bytes_ok a = true /\ bytes_ok b = true.
Proof. rewrite bytes_ok_app. apply andb_prop. Qed.
Lemma bytes_hd a l : bytes_ok (a :: l) = true -> (a < 256)%N /\ bytes_ok l = true.
Proof. unfold bytes_ok. cbn [forallb]. unfold is_byte. intros H. apply andb_prop in H. destruct H as [A B]. split; [lia|exact B]. Qed.
Lemma scan_cases rest s : bytes_ok rest = true ->
  (exists e, kfx_index_block rest s = Err e) \/
  (exists r, rest = [0x0D; 0x0D]%N ++ r) \/
  (exists b r, valid_block b /\ rest = block_bytes b ++ r) \/
  (exists s', kfx_index_block rest s = Ok (false, [], s')).
Proof.
  intros Hb. destruct rest as [|x rest]; [left; eexists; reflexivity|]. destruct (bytes_hd _ _ Hb) as [Hx Hr].
  destruct (N.leb_spec x 7) as [H7|H7].
  { destruct rest as [|y r]; [|destruct (bytes_hd _ _ Hr) as [Hy _]; right; right; left; exists (BFlux2 x y), r; split; [split; assumption|reflexivity]].
    right; right; right. unfold kfx_index_block. cbn [read_u8 obind]. tests. eexists. reflexivity. }
  destruct (N.eq_dec x 8) as [->|N8]; [right; right; left; exists BNop1, rest; split; [exact I|reflexivity]|].
  destruct (N.eq_dec x 9) as [->|N9].
  { destruct rest as [|y r]; [right; right; right; eexists; reflexivity|]. destruct (bytes_hd _ _ Hr) as [Hy _]. right; right; left. exists (BNop2 y), r. split; [exact Hy|reflexivity]. }
  destruct (N.eq_dec x 0x0A) as [->|NA].
  { destruct rest as [|y [|z r]]; [right; right; right; eexists; reflexivity|right; right; right; eexists; reflexivity|].
    destruct (bytes_hd _ _ Hr) as [Hy Hr2]. destruct (bytes_hd _ _ Hr2) as [Hz _]. right; right; left. exists (BNop3 y z), r. split; [split; assumption|reflexivity]. }
  destruct (N.eq_dec x 0x0B) as [->|NB]; [right; right; left; exists BOvl16, rest; split; [exact I|reflexivity]|].
  destruct (N.eq_dec x 0x0C) as [->|NC].
  { destruct rest as [|y [|z r]]; [right; right; right; eexists; reflexivity|right; right; right; eexists; reflexivity|].
    destruct (bytes_hd _ _ Hr) as [Hy Hr2]. destruct (bytes_hd _ _ Hr2) as [Hz _]. right; right; left. exists (BFlux3 y z), r. split; [split; assumption|reflexivity]. }
  destruct (N.eq_dec x 0x0D) as [->|ND].
  2:{ right; right; left. exists (BFlux1 x), rest. split; [cbn [valid_block]; lia|reflexivity]. }
  destruct rest as [|t r]; [right; right; right; eexists; reflexivity|]. destruct (bytes_hd _ _ Hr) as [Ht Hr2].
  unfold kfx_index_block. cbn [read_u8 obind]. change ((13 <=? 7)%N) with false. change ((13 =? 9)%N) with false. change ((13 =? 10)%N) with false. change ((13 =? 11)%N) with false. change ((13 =? 12)%N) with false. change ((13 =? 13)%N) with true. cbn iota. cbn [read_osb_block].
  destruct (osb_kind t) as [[-> U]|[[-> ->]|[[-> ->]|[[-> ->]|[[-> ->]|[-> ->]]]]]].
  - right; right; left. exists (BUnknown t), r. split; [split; assumption|reflexivity].
  - destruct (read_two r) as [[[p v] r2]|e|] eqn:E; [|left; eexists; reflexivity|].
    + destruct (read_two_dec _ _ _ _ E) as (f & st & -> & A & B & _). right; right; left. exists (BStreamInfo (f ++ st)), r2. rewrite app_assoc in Hr2. destruct (bytes_tail _ _ Hr2) as [H2 _].
      split; [split; [rewrite app_length; lia|exact H2]|]. cbn [block_bytes app]. rewrite <- app_assoc. reflexivity.
    + exfalso. unfold read_two in E. destruct (le16_cases r) as [[e E1]|(v & r1 & E1)]; rewrite E1 in E; cbn [obind] in E; [discriminate|]. destruct (le32_cases r1) as [[e E2]|(w & r2 & E2)]; rewrite E2 in E; cbn [obind] in E; [discriminate|].
      destruct (le32_cases r2) as [[e E3]|(y & r3 & E3)]; rewrite E3 in E; cbn [obind] in E; discriminate.
  - destruct (read_index r) as [[[p v] r2]|e|] eqn:E; [|left; eexists; reflexivity|].
    + destruct (read_index_dec _ _ _ _ E) as (a & b & c & d & -> & A & B & C & D & _). right; right; left. exists (BIndex a b c d), r2.
      replace (a ++ b ++ c ++ d ++ r2) with ((a ++ b ++ c ++ d) ++ r2) in * by (rewrite <- !app_assoc; reflexivity). destruct (bytes_tail _ _ Hr2) as [H2 _].
      split; [cbn [valid_block]; auto 6|]. cbn [block_bytes app]. rewrite <- !app_assoc. reflexivity.
    + exfalso. unfold read_index in E. destruct (le16_cases r) as [[e E1]|(v & r1 & E1)]; rewrite E1 in E; cbn [obind] in E; [discriminate|]. destruct (le32_cases r1) as [[e E2]|(w & r2 & E2)]; rewrite E2 in E; cbn [obind] in E; [discriminate|].
      destruct (le32_cases r2) as [[e E3]|(y & r3 & E3)]; rewrite E3 in E; cbn [obind] in E; [discriminate|]. destruct (le32_cases r3) as [[e E4]|(z & r4 & E4)]; rewrite E4 in E; cbn [obind] in E; discriminate.
  - destruct (read_two r) as [[[p v] r2]|e|] eqn:E; [|left; eexists; reflexivity|].
    + destruct (read_two_dec _ _ _ _ E) as (f & st & -> & A & B & _). right; right; left. exists (BStreamEnd f st), r2. rewrite app_assoc in Hr2. destruct (bytes_tail _ _ Hr2) as [H2 _].
      split; [split; [exact A|split; [exact B|exact H2]]|]. cbn [block_bytes app]. rewrite <- app_assoc. reflexivity.
    + exfalso. unfold read_two in E. destruct (le16_cases r) as [[e E1]|(v & r1 & E1)]; rewrite E1 in E; cbn [obind] in E; [discriminate|]. destruct (le32_cases r1) as [[e E2]|(w & r2 & E2)]; rewrite E2 in E; cbn [obind] in E; [discriminate|].
      destruct (le32_cases r2) as [[e E3]|(y & r3 & E3)]; rewrite E3 in E; cbn [obind] in E; discriminate.
  - destruct (le16_cases r) as [[e E1]|(v & r1 & E1)]; rewrite E1; cbn [obind]; [left; eexists; reflexivity|].
    destruct (le16_dec _ _ _ E1) as (a & -> & A & _). destruct (ascii_dec r1) as [(text & r2 & -> & Hn)|E].
    + right; right; left. exists (BKfInfo a text), r2. rewrite app_assoc in Hr2. destruct (bytes_tail _ _ Hr2) as [H2 _]. split; [split; [exact A|split; [exact H2|exact Hn]]|].
      cbn [block_bytes app]. rewrite <- !app_assoc. reflexivity.
    + right; right; right. rewrite E. eexists. reflexivity.
  - right; left. exists r. reflexivity.
Qed.
Lemma block_len b : valid_block b -> 1 <= length (block_bytes b).
Proof. destruct b; cbn [block_bytes app length]; lia. Qed.
Lemma scan_inv : forall fuel rest s s', bytes_ok rest = true -> kfx_scan fuel rest s = Ok s' ->
  exists bs r, Forall valid_block bs /\ rest = stream_bytes bs r /\ s' = fold_left bscan bs s.
Proof.
  induction fuel as [|fuel IH]; intros rest s s' Hb E; [discriminate|]. cbn [kfx_scan] in E.
  destruct (scan_cases rest s Hb) as [[e X]|[[r ->]|[(b & r & V & ->)|[s1 X]]]].
  - rewrite X in E. discriminate.
  - rewrite scan_eof in E. cbn [obind] in E. injection E as <-. exists [], r. split; [constructor|]. split; reflexivity.
  - rewrite scan_enc in E by exact V. cbn [obind] in E. destruct (bytes_tail _ _ Hb) as [_ Hr]. destruct (IH _ _ _ Hr E) as (bs & r2 & F & -> & ->).
    exists (b :: bs), r2. split; [constructor; assumption|]. split; [unfold stream_bytes; cbn [flat_map]; rewrite <- app_assoc; reflexivity|reflexivity].
  - rewrite X in E. cbn [obind] in E. destruct fuel; discriminate.
Qed.
Lemma scan_no_panic : forall fuel rest s, bytes_ok rest = true -> length rest < fuel -> kfx_scan fuel rest s <> Panic.
Proof.
  induction fuel as [|fuel IH]; intros rest s Hb L; [lia|]. cbn [kfx_scan].
  destruct (scan_cases rest s Hb) as [[e X]|[[r ->]|[(b & r & V & ->)|[s1 X]]]].
  - rewrite X. discriminate.
  - rewrite scan_eof. discriminate.
  - rewrite scan_enc by exact V. cbn [obind]. destruct (bytes_tail _ _ Hb) as [_ Hr]. apply IH; [exact Hr|]. rewrite app_length in L. pose proof (block_len b V). lia.
  - rewrite X. cbn [obind]. apply IH; [reflexivity|]. destruct rest as [|x rest]; [discriminate X|]. cbn [length] in *. lia.
Qed.
Lemma scan_stream : forall bs fuel rest s, Forall valid_block bs -> length bs < fuel -> kfx_scan fuel (stream_bytes bs rest) s = Ok (fold_left bscan bs s).
Proof.
  induction bs as [|b bs IH]; intros fuel rest s F L; (destruct fuel as [|fuel]; [lia|]); cbn [kfx_scan].
  - unfold stream_bytes. cbn [flat_map app]. change (13%N :: 13%N :: rest) with ([13; 13]%N ++ rest). rewrite scan_eof. reflexivity.
  - unfold stream_bytes. cbn [flat_map]. rewrite <- app_assoc. fold (stream_bytes bs rest). rewrite scan_enc by exact (Forall_inv F). cbn [obind fold_left]. cbn [length] in L. apply IH; [exact (Forall_inv_tail F)|lia].
Qed.
Lemma stream_len bs rest : Forall valid_block bs -> length bs < length (stream_bytes bs rest).
Proof.
  intros F. unfold stream_bytes. rewrite app_length. cbn [app length]. enough (length bs <= length (flat_map block_bytes bs)) by lia.
  induction F as [|b bs V F IH]; [apply le_n|]. cbn [flat_map length]. rewrite app_length. pose proof (block_len b V). lia.
Qed.
