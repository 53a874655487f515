(* Td0_proofs.v - the TeleDisk loader: checksum and data records. *)
From Verif Require Import Base Base_lemmas Mfm_spec Mfm_proofs Chs_model Types_model MetaSector_model MetaSector_spec BitStream_model
  DiskImage_model DiskImage_spec DiskImage_proofs Raw_model Crc_spec Crc_proofs Crc16_proofs Td0_model Td0_spec.
From Coq Require Import Lia.

(* ---- the checksum ---- *)
Local Notation P := 0xA097%N.
Lemma HGtd : (P < 2 ^ 16)%N. Proof. vm_compute; reflexivity. Qed.
Lemma td0_round_zstep s : td0_round s = zstep 16 P s.
Proof.
  unfold td0_round, zstep, as_u16. rewrite N.shiftl_mul_pow2, N.pow_1_r, (N.mul_comm s 2).
  replace (negb (N.land s 0x8000 =? 0)%N) with (N.testbit s 15); [reflexivity|].
  change 0x8000%N with (2 ^ 15)%N. destruct (N.testbit s 15) eqn:E.
  - destruct (N.eqb_spec (N.land s (2 ^ 15)) 0) as [H|H]; auto.
    pose proof (f_equal (fun x => N.testbit x 15) H) as H1. cbn beta in H1. rewrite N.land_spec, E in H1. discriminate.
  - destruct (N.eqb_spec (N.land s (2 ^ 15)) 0) as [H|H]; auto.
    exfalso; apply H. apply N.bits_inj; intros i. rewrite N.land_spec, N.bits_0, N.pow2_bits_eqb.
    destruct (N.eqb_spec 15 i) as [<-|]; [rewrite E; auto|apply andb_false_r].
Qed.
Lemma td0_iter k s : N.iter (N.of_nat k) td0_round s = zeros 16 P k s.
Proof.
  revert s; induction k as [|k IH]; intros s; [reflexivity|].
  rewrite Nat2N.inj_succ, N.iter_succ_r. rewrite IH, td0_round_zstep. reflexivity.
Qed.
Lemma td0_byte_bits b s : (b < 256)%N -> (s < 2 ^ 16)%N -> td0_byte s b = crcb 16 P s (byte_bits b).
Proof.
  intros Hb Hs. rewrite (crcb_block 16 P HW16 HGtd) by (auto; cbn; lia).
  rewrite bits_val_byte_bits by auto. cbn [length byte_bits].
  unfold td0_byte. change 8%N with (N.of_nat 8) at 1. rewrite td0_iter. rewrite N.shiftl_mul_pow2. reflexivity.
Qed.
Lemma td0_crc_crcb data s : bytes_ok data = true -> (s < 2 ^ 16)%N -> td0_crc data s = crcb 16 P s (bits_of data).
Proof.
  unfold td0_crc. revert s; induction data as [|b data IH]; intros s Hd Hs; auto.
  cbn [bytes_ok forallb] in Hd. apply andb_prop in Hd as [Hb Hd].
  cbn [fold_left bits_of flat_map]. rewrite crcb_app, <- td0_byte_bits by (auto; unfold is_byte in Hb; lia).
  apply IH; auto. rewrite td0_byte_bits by (auto; unfold is_byte in Hb; lia). apply crcb_lt; auto using HW16, HGtd.
Qed.
Lemma td0_crc_lt data : bytes_ok data = true -> (td0_crc data 0 < 65536)%N.
Proof. intros H. rewrite td0_crc_crcb by (auto; reflexivity). apply (crcb_lt 16 P); [exact HW16|exact HGtd|reflexivity]. Qed.

(* ---- repeated pairs ---- *)
Lemma pairs_len n (b a : N) : length (concat (repeat [b; a] n)) = 2 * n.
Proof. induction n as [|n IH]; [reflexivity|]. cbn [repeat concat app length]. rewrite IH. lia. Qed.
Lemma put_pairs_ok a b size : forall n out, length out + 2 * n <= size ->
  td0_put_pairs n size a b out = Ok (out ++ concat (repeat [b; a] n)).
Proof.
  induction n as [|n IH]; intros out H; [cbn; rewrite app_nil_r; reflexivity|]. cbn [td0_put_pairs].
  replace (length out <? size - 1) with true by (symmetry; apply Nat.ltb_lt; lia).
  rewrite IH by (rewrite app_length; cbn [length]; lia). cbn [repeat concat]. rewrite <- app_assoc. reflexivity.
Qed.
Lemma put_pairs_inv a b size : forall n out out', length out <= size -> td0_put_pairs n size a b out = Ok out' ->
  out' = out ++ concat (repeat [b; a] n) /\ length out' <= size.
Proof.
  induction n as [|n IH]; intros out out' Hl H; cbn [td0_put_pairs] in H.
  - assert (out = out') by congruence. subst. cbn. rewrite app_nil_r. auto.
  - destruct (Nat.ltb_spec (length out) (size - 1)) as [L|L]; [|discriminate].
    apply IH in H as [-> H2]; [|rewrite app_length; cbn [length]; lia]. cbn [repeat concat].
    rewrite <- app_assoc in H2 |- *. auto.
Qed.
Lemma put_pairs_no_panic a b size : forall n out, td0_put_pairs n size a b out <> Panic.
Proof. induction n as [|n IH]; intros out; [discriminate|]. cbn [td0_put_pairs]. destruct (_ <? _); [apply IH|discriminate]. Qed.

Lemma le16_val x : (x mod 256 + 256 * (x / 256))%N = x.
Proof. pose proof (N.div_mod x 256 ltac:(discriminate)). lia. Qed.
Lemma le16_of c0 c1 : (c0 < 256)%N -> le16_bytes (c0 + 256 * c1) = [c0; c1].
Proof.
  intros H. unfold le16_bytes. rewrite N.mul_comm, N.mod_add by discriminate. rewrite N.div_add by discriminate.
  rewrite N.mod_small by exact H. rewrite N.div_small by exact H. reflexivity.
Qed.
Lemma fills_from {A} (f : A -> list N) size out (e : A) l :
  (forall l1 x l2, e :: l = l1 ++ x :: l2 -> length (out ++ flat_map f l1) < size) ->
  length out < size /\ (forall l1 x l2, l = l1 ++ x :: l2 -> length ((out ++ f e) ++ flat_map f l1) < size).
Proof.
  intros H. split.
  - specialize (H [] e l eq_refl). cbn [flat_map] in H. rewrite app_nil_r in H. exact H.
  - intros l1 x l2 E. specialize (H (e :: l1) x l2). cbn [flat_map app] in H. rewrite <- app_assoc. apply H. rewrite E. reflexivity.
Qed.
Lemma pairs_fwd size : forall l fuel out rest, length (out ++ flat_map pair_data l) = size ->
  (forall l1 e l2, l = l1 ++ e :: l2 -> length (out ++ flat_map pair_data l1) < size) -> length l < fuel ->
  td0_pairs fuel size out (flat_map pair_bytes l ++ rest) = Ok (out ++ flat_map pair_data l, rest).
Proof.
  induction l as [|p l IH]; intros fuel out rest Hs Hp Hf.
  - cbn [flat_map] in *. rewrite app_nil_r in Hs |- *. cbn [app]. destruct fuel as [|fuel]; [lia|]. cbn [td0_pairs].
    rewrite Hs, Nat.ltb_irrefl, Nat.sub_diag. cbn [repeat]. rewrite app_nil_r. reflexivity.
  - destruct (fills_from pair_data size out p l Hp) as [H1 H2]. destruct fuel as [|fuel]; [lia|].
    cbn [flat_map] in Hs |- *. unfold pair_bytes at 1. cbn [le16_bytes app td0_pairs].
    replace (length out <? size) with true by (symmetry; apply Nat.ltb_lt; exact H1). rewrite le16_val.
    rewrite put_pairs_ok.
    2: { revert Hs. rewrite !app_length. unfold pair_data at 1. rewrite pairs_len. clear. lia. }
    cbn [obind]. fold (pair_data p). rewrite IH; [|rewrite <- app_assoc; exact Hs|exact H2|cbn [length] in Hf; lia].
    rewrite <- app_assoc. reflexivity.
Qed.
Lemma bytes_ok_cons x l : bytes_ok (x :: l) = true -> (x < 256)%N /\ bytes_ok l = true.
Proof. cbn [bytes_ok forallb]. intros H. apply andb_prop in H as [H1 H2]. unfold is_byte in H1. apply N.ltb_lt in H1. auto. Qed.
Lemma pairs_bwd size : forall fuel out rest res r, bytes_ok rest = true -> length out <= size ->
  td0_pairs fuel size out rest = Ok (res, r) ->
  exists l, rest = flat_map pair_bytes l ++ r /\ res = out ++ flat_map pair_data l /\ length res = size /\
    (forall l1 e l2, l = l1 ++ e :: l2 -> length (out ++ flat_map pair_data l1) < size) /\ Forall (fun p => (pr_count p < 65536)%N) l.
Proof.
  assert (Z : forall out rest res r, length out <= size -> (length out <? size) = false ->
    Ok (out ++ repeat 0%N (size - length out), rest) = Ok (res, r) ->
    exists l, rest = flat_map pair_bytes l ++ r /\ res = out ++ flat_map pair_data l /\ length res = size /\
    (forall l1 e l2, l = l1 ++ e :: l2 -> length (out ++ flat_map pair_data l1) < size) /\ Forall (fun p => (pr_count p < 65536)%N) l).
  { intros out rest res r Hl L H. apply Nat.ltb_ge in L. replace (size - length out) with 0 in H by lia. cbn [repeat] in H. rewrite app_nil_r in H.
    exists []. cbn [flat_map]. rewrite app_nil_r. split; [cbn; congruence|]. split; [congruence|]. split; [assert (res = out) by congruence; subst; lia|].
    split; [intros [|] ? ? E; discriminate|constructor]. }
  induction fuel as [|fuel IH]; intros out rest res r Hb Hl H; cbn [td0_pairs] in H;
    destruct (length out <? size) eqn:L; try (eapply Z; eassumption); try discriminate.
  destruct rest as [|c0 [|c1 [|a [|b rest]]]]; try discriminate.
  destruct (bytes_ok_cons _ _ Hb) as [B0 Hb1]. destruct (bytes_ok_cons _ _ Hb1) as [B1 Hb2].
  destruct (bytes_ok_cons _ _ Hb2) as [_ Hb3]. destruct (bytes_ok_cons _ _ Hb3) as [_ Hb4].
  destruct (td0_put_pairs (N.to_nat (c0 + 256 * c1)) size a b out) as [out2| |] eqn:E; cbn [obind] in H; try discriminate.
  apply put_pairs_inv in E as [E El]; [|exact Hl].
  destruct (IH _ _ _ _ Hb4 El H) as (l & -> & -> & Hs & Hp & HF).
  exists (mkPair (c0 + 256 * c1) a b :: l). cbn [flat_map].
  split; [unfold pair_bytes at 2; cbn [pr_count pr_a pr_b]; rewrite le16_of by exact B0; cbn [app]; reflexivity|].
  assert (Ed : out2 = out ++ pair_data (mkPair (c0 + 256 * c1) a b)) by (rewrite E; reflexivity).
  rewrite Ed, <- app_assoc in *. split; [reflexivity|]. split; [exact Hs|]. split.
  - intros [|x l1] e l2 El1; cbn [app] in El1.
    + cbn [flat_map]. rewrite app_nil_r. apply Nat.ltb_lt. exact L.
    + assert (x = mkPair (c0 + 256 * c1) a b) by congruence. assert (l = l1 ++ e :: l2) by congruence. subst x. cbn [flat_map]. 
      rewrite app_assoc. eapply Hp. eassumption.
  - constructor; [cbn [pr_count]; clear - B0 B1; lia|exact HF].
Qed.
Lemma pairs_no_panic size : forall fuel out rest, td0_pairs fuel size out rest <> Panic.
Proof.
  induction fuel as [|fuel IH]; intros out rest; cbn [td0_pairs]; destruct (_ <? _); try discriminate.
  destruct rest as [|c0 [|c1 [|a [|b rest]]]]; try discriminate.
  destruct (td0_put_pairs _ _ _ _ _) eqn:E; cbn [obind]; try discriminate; [apply IH|exfalso; exact (put_pairs_no_panic _ _ _ _ _ E)].
Qed.

(* ---- runs ---- *)
Lemma concat_len n (p : list N) : length (concat (repeat p n)) = n * length p.
Proof. induction n as [|n IH]; [reflexivity|]. cbn [repeat concat]. rewrite app_length, IH. reflexivity. Qed.
Lemma put_runs_ok size pat : pat <> [] -> forall n out, length out + n * length pat <= size ->
  td0_put_runs n size pat out = Ok (out ++ concat (repeat pat n)).
Proof.
  intros Hp. assert (Hl : 0 < length pat) by (destruct pat; [congruence|cbn; lia]).
  induction n as [|n IH]; intros out H; [cbn; rewrite app_nil_r; reflexivity|]. cbn [td0_put_runs]. cbn [Nat.mul] in H.
  replace (length out <? size) with true by (symmetry; apply Nat.ltb_lt; lia).
  replace (size <? length out + length pat) with false by (symmetry; apply Nat.ltb_ge; lia).
  rewrite IH by (rewrite app_length; lia). cbn [repeat concat]. rewrite <- app_assoc. reflexivity.
Qed.
Lemma put_runs_inv size pat : forall n out out', length out <= size -> td0_put_runs n size pat out = Ok out' ->
  out' = out ++ concat (repeat pat n) /\ length out' <= size.
Proof.
  induction n as [|n IH]; intros out out' Hl H; cbn [td0_put_runs] in H.
  - assert (out = out') by congruence. subst. cbn. rewrite app_nil_r. auto.
  - destruct (length out <? size); [|discriminate]. destruct (Nat.ltb_spec size (length out + length pat)) as [L|L]; [discriminate|].
    apply IH in H as [-> H2]; [|rewrite app_length; lia]. cbn [repeat concat]. rewrite <- app_assoc in H2 |- *. auto.
Qed.
Lemma put_runs_panic size pat : forall n out, td0_put_runs n size pat out = Panic ->
  exists j, j < n /\ length out + j * length pat < size < length out + S j * length pat.
Proof.
  induction n as [|n IH]; intros out H; cbn [td0_put_runs] in H; [discriminate|].
  destruct (Nat.ltb_spec (length out) size) as [L|L]; [|discriminate].
  destruct (Nat.ltb_spec size (length out + length pat)) as [L2|L2].
  - exists 0. split; lia.
  - apply IH in H as (j & Hj & H). rewrite app_length in H. exists (S j). split; [lia|]. cbn [Nat.mul] in *. lia.
Qed.
Lemma put_runs_over size pat : forall n out j, j < n -> length out + j * length pat < size < length out + S j * length pat ->
  td0_put_runs n size pat out = Panic.
Proof.
  induction n as [|n IH]; intros out j Hj H; [lia|]. cbn [td0_put_runs].
  destruct (Nat.ltb_spec (length out) size) as [L|L]; [|exfalso; clear - H L; nia].
  destruct (Nat.ltb_spec size (length out + length pat)) as [L2|L2]; [reflexivity|].
  destruct j as [|j]; [exfalso; cbn [Nat.mul] in H; lia|].
  apply (IH _ j); [lia|]. rewrite app_length. cbn [Nat.mul] in *. lia.
Qed.
Lemma read_app n (a r : list N) : length a = n -> read_exact n (a ++ r) = Ok (a, r).
Proof.
  intros <-. unfold read_exact. rewrite app_length. replace (length a + length r <? length a) with false by (symmetry; apply Nat.ltb_ge; lia).
  rewrite firstn_app, Nat.sub_diag, firstn_O, app_nil_r, firstn_all, skipn_app, Nat.sub_diag, skipn_all. reflexivity.
Qed.
Lemma read_inv n rest a r : read_exact n rest = Ok (a, r) -> rest = a ++ r /\ length a = n.
Proof.
  unfold read_exact. destruct (Nat.ltb_spec (length rest) n) as [L|L]; [discriminate|]. intros E.
  assert (a = firstn n rest) by congruence. assert (r = skipn n rest) by congruence. subst.
  rewrite firstn_skipn. split; [reflexivity|]. rewrite firstn_length. lia.
Qed.
Lemma half_code k : 0 < k -> k < 256 -> (N.of_nat (2 * k) / 2 = N.of_nat k)%N /\ (N.of_nat k =? 0)%N = false.
Proof.
  intros H1 H2. split; [rewrite Nat2N.inj_mul, N.mul_comm; apply N.div_mul; discriminate|apply N.eqb_neq; lia].
Qed.
Lemma rle_step fuel size out e rest : length out < size -> valid_run e -> length (out ++ run_data e) <= size ->
  td0_rle (S fuel) size out (run_bytes e ++ rest) = td0_rle fuel size (out ++ run_data e) rest.
Proof.
  intros H1 Hv H. cbn [td0_rle]. replace (length out <? size) with true by (symmetry; apply Nat.ltb_lt; exact H1).
  rewrite app_length in H. destruct e as [b|n p]; cbn [run_bytes run_data app valid_run] in *.
  - change (0 =? 0)%N with true. rewrite Nat2N.id.
    replace (size <? length out + length b) with false by (symmetry; apply Nat.ltb_ge; lia). cbv iota.
    rewrite read_app by reflexivity. reflexivity.
  - destruct Hv as (Hn & Hne & k & Hk & Ek). assert (Hk0 : 0 < k) by (destruct p; [congruence|cbn [length] in Ek; lia]).
    rewrite Ek. destruct (half_code k Hk0 Hk) as [-> E0]. rewrite E0. rewrite Nat2N.id, read_app by exact Ek. cbn [obind].
    rewrite put_runs_ok by (auto; rewrite concat_len in H; exact H). reflexivity.
Qed.
Lemma rle_fwd size : forall l fuel out rest, length (out ++ flat_map run_data l) = size ->
  (forall l1 e l2, l = l1 ++ e :: l2 -> length (out ++ flat_map run_data l1) < size) -> Forall valid_run l -> length l < fuel ->
  td0_rle fuel size out (flat_map run_bytes l ++ rest) = Ok (out ++ flat_map run_data l, rest).
Proof.
  induction l as [|e l IH]; intros fuel out rest Hs Hp HF Hf.
  - cbn [flat_map] in *. rewrite app_nil_r in Hs |- *. cbn [app]. destruct fuel as [|fuel]; [lia|]. cbn [td0_rle].
    rewrite Hs, Nat.ltb_irrefl. reflexivity.
  - destruct (fills_from run_data size out e l Hp) as [H1 H2]. destruct fuel as [|fuel]; [lia|]. inversion HF as [|? ? Hv HF']; subst x l0.
    cbn [flat_map] in Hs |- *. rewrite <- app_assoc.
    rewrite rle_step; [|exact H1|exact Hv|revert Hs; rewrite !app_length; clear; lia].
    rewrite IH; [rewrite <- app_assoc; reflexivity|rewrite <- app_assoc; exact Hs|exact H2|exact HF'|cbn [length] in Hf; lia].
Qed.
(* one entry that is read *)
Lemma rle_step_inv fuel size out rest o : bytes_ok rest = true -> length out < size -> td0_rle (S fuel) size out rest = o ->
  (exists e r, rest = run_bytes e ++ r /\ valid_run e /\ length (out ++ run_data e) <= size /\ o = td0_rle fuel size (out ++ run_data e) r) \/
  (o = Panic /\ ((exists n r, rest = [0%N; n] ++ r /\ size < length out + N.to_nat n) \/
                 (exists n p r j, rest = run_bytes (Repeated n p) ++ r /\ valid_run (Repeated n p) /\ j < N.to_nat n /\
                    length out + j * length p < size < length out + S j * length p))) \/
  (exists x, o = Err x).
Proof.
  intros Hb Hl H. cbn [td0_rle] in H. replace (length out <? size) with true in H by (symmetry; apply Nat.ltb_lt; exact Hl).
  destruct rest as [|code [|n rest]]; try (right; right; exists IoError; symmetry; exact H).
  destruct (bytes_ok_cons _ _ Hb) as [B0 Hb1]. destruct (bytes_ok_cons _ _ Hb1) as [B1 Hb2].
  destruct (N.eqb_spec code 0) as [->|Hc].
  - destruct (Nat.ltb_spec size (length out + N.to_nat n)) as [L|L].
    + right; left. split; [congruence|]. left. exists n, rest. split; [reflexivity|exact L].
    + destruct (read_exact (N.to_nat n) rest) as [[blk r]|x|] eqn:E; cbn [obind] in H.
      * apply read_inv in E as [-> En]. left. exists (Literal blk), r. cbn [run_bytes run_data valid_run app]. rewrite app_length, En, N2Nat.id.
        split; [reflexivity|]. split; [clear - B1; lia|]. split; [lia|symmetry; exact H].
      * right; right. exists x. symmetry. exact H.
      * exfalso. unfold read_exact in E. destruct (_ <? _) in E; discriminate.
  - destruct (read_exact (2 * N.to_nat code) rest) as [[pat r]|x|] eqn:E; cbn [obind] in H.
    + apply read_inv in E as [-> En].
      assert (Hpat : pat <> []) by (intros ->; cbn [length] in En; lia).
      assert (Hcode : (N.of_nat (length pat) / 2)%N = code).
      { rewrite En. destruct (half_code (N.to_nat code)) as [-> _]; lia. }
      assert (Hv : valid_run (Repeated n pat)).
      { cbn [valid_run]. split; [exact B1|]. split; [exact Hpat|]. exists (N.to_nat code). split; [lia|exact En]. }
      assert (Er : code :: n :: pat ++ r = run_bytes (Repeated n pat) ++ r) by (cbn [run_bytes app]; rewrite Hcode; reflexivity).
      destruct (td0_put_runs (N.to_nat n) size pat out) as [out2|x|] eqn:E2; cbn [obind] in H.
      * apply put_runs_inv in E2 as [E2 Hl2]; [|lia]. left. exists (Repeated n pat), r. rewrite Er.
        split; [reflexivity|]. split; [exact Hv|]. cbn [run_data]. rewrite <- E2. split; [exact Hl2|symmetry; exact H].
      * right; right. exists x. symmetry. exact H.
      * right; left. split; [congruence|]. right. apply put_runs_panic in E2 as (j & Hj & E2). exists n, pat, r, j. rewrite Er. auto.
    + right; right. exists x. symmetry. exact H.
    + exfalso. unfold read_exact in E. destruct (_ <? _) in E; discriminate.
Qed.
Lemma rle_bwd size : forall fuel out rest res r, bytes_ok rest = true -> length out <= size ->
  td0_rle fuel size out rest = Ok (res, r) ->
  exists l, rest = flat_map run_bytes l ++ r /\ res = out ++ flat_map run_data l /\ length res = size /\
    (forall l1 e l2, l = l1 ++ e :: l2 -> length (out ++ flat_map run_data l1) < size) /\ Forall valid_run l.
Proof.
  assert (Z : forall out rest res r, length out <= size -> (length out <? size) = false -> Ok (out, rest) = Ok (res, r) ->
    exists l, rest = flat_map run_bytes l ++ r /\ res = out ++ flat_map run_data l /\ length res = size /\
    (forall l1 e l2, l = l1 ++ e :: l2 -> length (out ++ flat_map run_data l1) < size) /\ Forall valid_run l).
  { intros out rest res r Hl L H. apply Nat.ltb_ge in L.
    exists []. cbn [flat_map]. rewrite app_nil_r. split; [cbn; congruence|]. split; [congruence|]. split; [assert (res = out) by congruence; subst; lia|].
    split; [intros [|] ? ? E; discriminate|constructor]. }
  induction fuel as [|fuel IH]; intros out rest res r Hb Hl H.
  - cbn [td0_rle] in H. destruct (length out <? size) eqn:L; [discriminate|eapply Z; eassumption].
  - destruct (length out <? size) eqn:L; [|cbn [td0_rle] in H; rewrite L in H; eapply Z; eassumption].
    apply Nat.ltb_lt in L.
    destruct (rle_step_inv _ _ _ _ _ Hb L H) as [(e & r2 & -> & Hv & Hl2 & E)|[[E _]|[x E]]]; try discriminate.
    rewrite bytes_ok_app in Hb. apply andb_prop in Hb as [_ Hb2].
    destruct (IH _ _ _ _ Hb2 Hl2 (eq_sym E)) as (l & -> & -> & Hs & Hp & HF).
    exists (e :: l). cbn [flat_map]. split; [rewrite <- app_assoc; reflexivity|]. split; [rewrite <- app_assoc; reflexivity|]. split; [exact Hs|]. split.
    + intros [|x l1] e2 l2 El1; cbn [app] in El1.
      * cbn [flat_map]. rewrite app_nil_r. exact L.
      * assert (x = e) by congruence. assert (l = l1 ++ e2 :: l2) by congruence. subst x. cbn [flat_map].
        rewrite app_assoc. eapply Hp. eassumption.
    + constructor; assumption.
Qed.
(* an entry that goes past the end of the sector *)
Definition overruns (size : nat) (rest : list N) : Prop :=
  exists l r, Forall valid_run l /\ length (flat_map run_data l) < size /\
    (forall l1 e l2, l = l1 ++ e :: l2 -> length (flat_map run_data l1) < size) /\
    ((exists n, rest = flat_map run_bytes l ++ [0%N; n] ++ r /\ size < length (flat_map run_data l) + N.to_nat n) \/
     (exists n p j, rest = flat_map run_bytes l ++ run_bytes (Repeated n p) ++ r /\ valid_run (Repeated n p) /\ j < N.to_nat n /\
        length (flat_map run_data l) + j * length p < size < length (flat_map run_data l) + S j * length p)).
Lemma rle_panic size : forall fuel out rest, bytes_ok rest = true -> length out <= size -> td0_rle fuel size out rest = Panic ->
  exists l r, Forall valid_run l /\ length (out ++ flat_map run_data l) < size /\
    (forall l1 e l2, l = l1 ++ e :: l2 -> length (out ++ flat_map run_data l1) < size) /\
    ((exists n, rest = flat_map run_bytes l ++ [0%N; n] ++ r /\ size < length (out ++ flat_map run_data l) + N.to_nat n) \/
     (exists n p j, rest = flat_map run_bytes l ++ run_bytes (Repeated n p) ++ r /\ valid_run (Repeated n p) /\ j < N.to_nat n /\
        length (out ++ flat_map run_data l) + j * length p < size < length (out ++ flat_map run_data l) + S j * length p)).
Proof.
  induction fuel as [|fuel IH]; intros out rest Hb Hl H.
  - cbn [td0_rle] in H. destruct (length out <? size) eqn:L; discriminate.
  - destruct (length out <? size) eqn:L; [|cbn [td0_rle] in H; rewrite L in H; discriminate].
    apply Nat.ltb_lt in L.
    destruct (rle_step_inv _ _ _ _ _ Hb L H) as [(e & r2 & -> & Hv & Hl2 & E)|[[_ E]|[x E]]]; try discriminate.
    + rewrite bytes_ok_app in Hb. apply andb_prop in Hb as [_ Hb2].
      destruct (IH _ _ Hb2 Hl2 (eq_sym E)) as (l & r & HF & Hs & Hp & D).
      exists (e :: l), r. cbn [flat_map]. rewrite <- app_assoc in Hs, D. split; [constructor; assumption|]. split; [exact Hs|]. split.
      * intros [|x l1] e2 l2 El1; cbn [app] in El1.
        -- cbn [flat_map]. rewrite app_nil_r. exact L.
        -- assert (x = e) by congruence. assert (l = l1 ++ e2 :: l2) by congruence. subst x. cbn [flat_map].
           rewrite app_assoc. eapply Hp. eassumption.
      * destruct D as [(n & -> & D)|(n & p & j & -> & D)].
        -- left. exists n. rewrite <- app_assoc. auto.
        -- right. exists n, p, j. rewrite <- app_assoc. auto.
    + exists []. cbn [flat_map app]. rewrite app_nil_r. destruct E as [(n & r & -> & E)|(n & p & r & j & -> & E)]; exists r;
        (split; [constructor|]; split; [exact L|]; split; [intros [|] ? ? El; discriminate|]).
      * left. exists n. auto.
      * right. exists n, p, j. auto.
Qed.
Lemma rle_overruns size : forall l fuel out rest r, Forall valid_run l -> length (out ++ flat_map run_data l) < size ->
  (forall l1 e l2, l = l1 ++ e :: l2 -> length (out ++ flat_map run_data l1) < size) -> S (length l) < fuel ->
    ((exists n, rest = flat_map run_bytes l ++ [0%N; n] ++ r /\ size < length (out ++ flat_map run_data l) + N.to_nat n) \/
     (exists n p j, rest = flat_map run_bytes l ++ run_bytes (Repeated n p) ++ r /\ valid_run (Repeated n p) /\ j < N.to_nat n /\
        length (out ++ flat_map run_data l) + j * length p < size < length (out ++ flat_map run_data l) + S j * length p)) ->
  td0_rle fuel size out rest = Panic.
Proof.
  induction l as [|e l IH]; intros fuel out rest r HF Hs Hp Hf D.
  - cbn [flat_map] in *. rewrite app_nil_r in *. destruct fuel as [|fuel]; [lia|].
    destruct D as [(n & -> & D)|(n & p & j & -> & Hv & Hj & D)]; cbn [td0_rle app];
      (replace (length out <? size) with true by (symmetry; apply Nat.ltb_lt; exact Hs)).
    + change (0 =? 0)%N with true. replace (size <? length out + N.to_nat n) with true by (symmetry; apply Nat.ltb_lt; exact D). reflexivity.
    + cbn [run_bytes app]. destruct Hv as (Hn & Hne & k & Hk & Ek).
      assert (Hk0 : 0 < k) by (destruct p; [congruence|cbn [length] in Ek; lia]).
      destruct (half_code k Hk0 Hk) as [E1 E0]. assert (Ec : (N.of_nat (length p) / 2)%N = N.of_nat k) by (rewrite Ek; exact E1).
      rewrite Ec, E0. rewrite Nat2N.id, read_app by exact Ek. cbn [obind].
      rewrite (put_runs_over _ _ _ _ j Hj D). reflexivity.
  - destruct (fills_from run_data size out e l Hp) as [H1 H2]. destruct fuel as [|fuel]; [lia|]. inversion HF as [|? ? Hv HF']; subst x l0.
    cbn [flat_map] in Hs, D.
    assert (Es : exists rest', rest = run_bytes e ++ rest' /\
      ((exists n, rest' = flat_map run_bytes l ++ [0%N; n] ++ r /\ size < length ((out ++ run_data e) ++ flat_map run_data l) + N.to_nat n) \/
     (exists n p j, rest' = flat_map run_bytes l ++ run_bytes (Repeated n p) ++ r /\ valid_run (Repeated n p) /\ j < N.to_nat n /\
        length ((out ++ run_data e) ++ flat_map run_data l) + j * length p < size < length ((out ++ run_data e) ++ flat_map run_data l) + S j * length p))).
    { rewrite <- (app_assoc out). destruct D as [(n & -> & D)|(n & p & j & -> & D)]; eexists; rewrite <- app_assoc; (split; [reflexivity|]).
      - left. exists n. auto.
      - right. exists n, p, j. auto. }
    destruct Es as (rest' & -> & D').
    rewrite rle_step; [|exact H1|exact Hv|revert Hs; rewrite !app_length; clear; lia].
    apply (IH fuel _ rest' r HF'); [rewrite <- app_assoc; exact Hs|exact H2|cbn [length] in Hf; lia|exact D'].
Qed.
