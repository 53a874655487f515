(* Session_props.v - C73: no history of requests to a loaded track panics. *)
From Verif Require Import Base Base_lemmas Chs_model Crc_model BitRing_model Mfm_model Types_model System34_model BitStream_model MetaSector_model DiskImage_model BitStream_props Total_spec Total_proofs Total_props Session_spec Session_proofs.
From Coq Require Import Lia.
Import ListNotations.
Local Open Scope nat_scope.

Lemma loaded_alive rnd ch data weak ct detect t : bt_new rnd ch data weak ct detect = Ok t -> mfm_data (bt_data t) <> [] -> alive t.
Proof.
  intros E HN.
  assert (A : (data <> [] \/ ct <> None) /\ match weak with Some w => length w = length data /\ data <> [] | None => True end).
  { destruct (match weak with Some w => negb (length data =? length w) | None => false end) eqn:M; [unfold bt_new in E; rewrite M in E; discriminate E|]. destruct data as [|d0 data].
    - destruct ct as [n|]; [|unfold bt_new in E; rewrite M in E; discriminate E]. split; [right; discriminate|]. destruct weak as [w|]; [|exact I]. exfalso. destruct w; [|discriminate M].
      unfold bt_new in E. cbn [length Nat.eqb negb obind option_map flat_map] in E. unfold mfm_new in E. set (l := map (fun i => i mod 2 =? 0) (seq 0 n)) in *. assert (Ll : length (firstn n l) = n) by (unfold l; rewrite firstn_length, map_length, seq_length; lia). cbn [length] in E. rewrite Ll in E. destruct (Nat.ltb_spec 0 n) as [B|B]; [discriminate E|].
      assert (n = 0) by lia. subst n. cbn [obind] in E. rewrite empty_scan in E by reflexivity. cbn [obind] in E. apply (f_equal (fun x => match x with Ok y => y | _ => t end)) in E. subst t. apply HN. reflexivity.
    - split; [left; discriminate|]. destruct weak as [w|]; [|exact I]. split; [|discriminate]. apply negb_false_iff, Nat.eqb_eq in M. symmetry. exact M. }
  destruct A as [A B]. destruct (new_total rnd ch data weak ct detect A B) as [[_ X]|(_ & t' & X & C & G)]; [rewrite X in E; discriminate E|]. rewrite E in X. apply (f_equal (fun x => match x with Ok y => y | _ => t end)) in X. subst t'. apply G. rewrite <- C. exact HN.
Qed.

(* Whatever a track that has cells was made of, any requests in any order leave it a track of the same cells and sectors; none of them panics. *)
Theorem C73_session : forall rnd ch data weak ct detect t l, bt_new rnd ch data weak ct detect = Ok t -> mfm_data (bt_data t) <> [] -> Forall (fun x => usual (snd x)) l ->
  exists t', requests t l = Ok t' /\ same_layout t t'.
Proof. intros rnd ch data weak ct detect t l E HN U. destruct (requests_total l t (loaded_alive _ _ _ _ _ _ _ E HN) U) as (t' & A & _ & B). exists t'. split; [exact A|exact B]. Qed.
(* And after them a read gives as many bytes as the header of the sector says, or none if it reports the sector as not found. *)
Theorem C73_read : forall rnd ch data weak ct detect t l t' rnd' q offset, bt_new rnd ch data weak ct detect = Ok t -> mfm_data (bt_data t) <> [] -> Forall (fun x => usual (snd x)) l -> requests t l = Ok t' ->
  (bt_schema t = false /\ bt_read_sector rnd' t' q None offset DataOnly false = Err SchemaError) \/
  exists r d, bt_read_sector rnd' t' q None offset DataOnly false = Ok r /\ read_data_of r = Ok d /\
    ((rs_not_found r = true /\ d = []) \/ (rs_not_found r = false /\ exists c, rs_id r = Some c /\ N.of_nat (length d) = n_to_bytes (chsn_n c))).
Proof.
  intros rnd ch data weak ct detect t l t' rnd' q offset E HN U Er. destruct (requests_total l t (loaded_alive _ _ _ _ _ _ _ E HN) U) as (t1 & A & B & C). assert (t1 = t') by congruence. subst t1. pose proof C as (_ & _ & _ & _ & _ & Cs).
  destruct (read_total_sector rnd' t' q None offset DataOnly B ltac:(discriminate)) as [[S0 X]|(r & X & Hr)]; [left; split; [congruence|exact X]|]. right. exists r.
  destruct Hr as [(Nf & Hb & Hr)|(c & Hc & Nf & Hb & Hr)].
  - exists []. split; [exact X|]. split; [unfold read_data_of; rewrite Hr, Hb; reflexivity|]. left. split; [exact Nf|reflexivity].
  - exists (slice (rs_buf r) 4 (n_size c)). split; [exact X|]. split.
    + unfold read_data_of. rewrite Hr, Hb. destruct (Nat.ltb_spec (n_size c + 4) 4); [lia|]. destruct (Nat.ltb_spec (n_size c + 6) (n_size c + 4)); [lia|]. cbn [orb]. f_equal. f_equal. lia.
    + right. split; [exact Nf|]. exists c. split; [exact Hc|]. rewrite slice_length by lia. unfold n_size. apply N2Nat.id.
Qed.
(* Requests that only read change no cell. *)
Definition only_reads (r : TrackRequest) : Prop := match r with RWriteSector _ _ _ _ _ _ | RRecalculateCrc _ _ => False | _ => True end.
Theorem C73_reads_keep : forall rnd ch data weak ct detect t l t', bt_new rnd ch data weak ct detect = Ok t -> mfm_data (bt_data t) <> [] -> Forall (fun x => usual (snd x) /\ only_reads (snd x)) l -> requests t l = Ok t' ->
  mfm_data (bt_data t') = mfm_data (bt_data t) /\ bt_meta t' = bt_meta t.
Proof.
  intros rnd ch data weak ct detect t l t' E HN. pose proof (loaded_alive _ _ _ _ _ _ _ E HN) as A. clear E HN. revert t A. induction l as [|[rn r] l IH]; intros t A U Er; [cbn [requests] in Er; split; congruence|]. pose proof (Forall_inv U) as [U1 R1]. pose proof (Forall_inv_tail U) as U2. cbn [snd] in U1, R1. cbn [requests] in Er.
  assert (K : exists t1, request rn t r = Ok t1 /\ alive t1 /\ mfm_data (bt_data t1) = mfm_data (bt_data t) /\ bt_meta t1 = bt_meta t).
  { assert (Same : exists t', Ok t = Ok t' /\ alive t' /\ mfm_data (bt_data t') = mfm_data (bt_data t) /\ bt_meta t' = bt_meta t) by (exists t; split; [reflexivity|]; split; [exact A|]; split; reflexivity).
    destruct r as [q n o s|q o|q o d s del dbg|q o|n eot|o d]; cbn [request usual only_reads] in *; try contradiction.
    - destruct (read_total_sector rn t q n o s A U1) as [[_ X]|(x & X & _)]; rewrite X; exact Same.
    - unfold bt_scan_sector, scan_sector_element. destruct (bt_schema t); cbn [obind then_track]; exact Same.
    - destruct (read_all_total rn t n eot A) as (x & t1 & X & A1 & _ & D & M). rewrite X. exists t1. split; [reflexivity|]. split; [exact A1|]. split; [exact D|exact M].
    - destruct (read_track_total rn t o d A) as [[e X]|[x X]]; rewrite X; exact Same. }
  destruct K as (t1 & X & A1 & D1 & M1). rewrite X in Er. destruct (IH t1 A1 U2 Er) as [D2 M2]. split; [rewrite D2; exact D1|rewrite M2; exact M1].
Qed.

(* The whole element can be asked for as well; but then the bytes reported are never all there. *)
Theorem C73_entire_refuted : forall rnd t q offset r, bt_read_sector rnd t q None offset EntireElement false = Ok r -> rs_not_found r = false -> read_data_of r = Panic.
Proof.
  intros rnd t q offset r E Nf. unfold bt_read_sector, scan_sector_element in E. destruct (bt_schema t); cbn [negb] in E; [|discriminate E]. cbn [obind] in E. destruct (find_sector_element q (md_items (bt_meta t)) (off_of offset)) as [k c ae de del nd b|wc bc wh] eqn:F; [|injection E as <-; discriminate Nf].
  unfold find_sector_element in F. destruct (found_item _ _ _ _ _ _ _ _ _ _ _ _ _ _ _ F) as (i & j & Ek & Hj & Hi). cbn in Ek. subst j.
  destruct nd; [injection E as <-; discriminate Nf|]. cbn [negb] in E. rewrite andb_true_r in E. destruct ae; [injection E as <-; discriminate Nf|].
  destruct Hi as [[Hi _]|[_ Hi]]; [|discriminate Hi]. unfold oindex in E. rewrite Hj in E. cbn [obind] in E. cbv zeta in E. rewrite Hi in E. cbn [elem_range elem_size fst snd] in E. replace (4 + 2 + n_size c - (4 + 2 + n_size c - 0)) with 0 in E by lia.
  unfold decode_element in E. destruct (read_decoded_buf rnd (bt_data t) (n_size c + 0) (i_start i)) as [buf| |] eqn:Eb; cbn [obind] in E; [|discriminate E|discriminate E].
  assert (Lb : length buf = n_size c).
  { unfold read_decoded_buf in Eb. assert (G : forall ks acc x, ofold (fun acc k => let! b := read_decoded_u8 rnd (bt_data t) (i_start i + k * MFM_BYTE_LEN) in Ok (b :: acc)) ks acc = Ok x -> length x = length ks + length acc).
    { clear. induction ks as [|k ks IH]; intros acc x H; cbn [ofold] in H; [injection H as <-; reflexivity|]. destruct (read_decoded_u8 _ _ _) as [y| |]; cbn [obind] in H; try discriminate H. apply IH in H. cbn [length] in *. lia. }
    destruct (ofold _ _ _) as [x| |] eqn:Ex in Eb; cbn [omap] in Eb; try discriminate Eb. injection Eb as <-. apply G in Ex. rewrite rev_length, Ex, seq_length. cbn [length]. lia. }
  rewrite Hi in E. destruct (crc16_bytes buf) as [[x y]| |]; cbn [obind] in E; try discriminate E. injection E as <-. unfold read_data_of. cbn [rs_range rs_buf elem_range elem_size]. rewrite Lb. match goal with |- (if ?a then _ else _) = _ => destruct a eqn:X; [reflexivity|] end. exfalso. apply orb_false_iff in X. destruct X as [_ X]. apply Nat.ltb_ge in X. clear - X. lia.
Qed.

(* Analysing the track panics for 256 sectors or more, and only then. *)
Theorem C73_analysis : forall t, bt_analysis t = Panic <-> bt_schema t = true /\ (256 <= N.of_nat (length (md_ids (bt_meta t))))%N.
Proof.
  intros t. unfold bt_analysis, analyze_elements. destruct (bt_schema t); [|split; [discriminate|intros [H _]; discriminate H]].
  assert (G : forall ids b si, (N.of_nat si <= 255)%N -> (ofold (fun '(b, si) id => if (as_u8 (N.of_nat si) =? 255)%N then Panic else Ok (b || negb (chsn_s id =? as_u8 (N.of_nat si) + 1)%N, S si)) ids (b, si) = Panic <-> (256 <= N.of_nat si + N.of_nat (length ids))%N) /\
    (forall e, ofold (fun '(b, si) id => if (as_u8 (N.of_nat si) =? 255)%N then Panic else Ok (b || negb (chsn_s id =? as_u8 (N.of_nat si) + 1)%N, S si)) ids (b, si) <> Err e)).
  { induction ids as [|x ids IH]; intros b si Hs; cbn [ofold length]; [split; [split; [discriminate|lia]|discriminate]|]. assert (Ea : as_u8 (N.of_nat si) = N.of_nat si) by (unfold as_u8; apply N.mod_small; lia). rewrite Ea. destruct (N.eqb_spec (N.of_nat si) 255) as [H|H]; cbn [obind]; [split; [split; [lia|reflexivity]|discriminate]|].
    destruct (IH (b || negb (chsn_s x =? N.of_nat si + 1)%N) (S si) ltac:(lia)) as [IH1 IH2]. split; [|exact IH2]. rewrite IH1. lia. }
  destruct (G (md_ids (bt_meta t)) false 0 ltac:(lia)) as [G1 G2]. unfold ids_nonconsecutive. destruct (ofold _ _ _) as [[b k]|e|]; cbn [obind].
  - split; [discriminate|]. intros [_ H]. assert (X : Ok (b, k) = Panic) by (apply G1; lia). discriminate X.
  - exfalso. exact (G2 e eq_refl).
  - split; [intros _; split; [reflexivity|]|reflexivity]. assert (X := proj1 G1 eq_refl). lia.
Qed.

Example C73_ex : exists t t', tiny_load tiny_normal = Ok t /\ mfm_data (bt_data t) <> [] /\
  requests t [(no_rnd, RReadSector tiny_q None None DataOnly); (no_rnd, RWriteSector tiny_q None [] DataOnly false false); (no_rnd, RRecalculateCrc tiny_q None); (no_rnd, RReadAllSectors 57 9)] = Ok t' /\ md_ids (bt_meta t') = [tiny_id].
Proof. eexists. eexists. split; [vm_compute; reflexivity|]. split; [vm_compute; discriminate|]. split; [vm_compute; reflexivity|vm_compute; reflexivity]. Qed.

Print Assumptions C73_session.
Print Assumptions C73_read.
Print Assumptions C73_reads_keep.
Print Assumptions C73_entire_refuted.
Print Assumptions C73_analysis.
