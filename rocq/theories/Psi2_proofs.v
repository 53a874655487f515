(* Psi2_proofs.v - what PSI files can make the loader panic. *)
From Verif Require Import Base Base_lemmas Chs_model Types_model MetaSector_model MetaSector_spec BitStream_model
  DiskImage_model DiskImage_spec DiskImage_proofs Format_model Raw_model Raw4_proofs TreeMap_proofs Crc32_model Crc32_proofs
  Pce_model Pce_proofs Imd_model Imd_spec Imd_proofs Imd2_proofs Psi_model Psi_spec Psi_proofs.
From Coq Require Import Lia.
Import ListNotations.

(* a chunk that was read is in the file *)
Lemma read_chunk_inv l id data r : bytes_ok l = true -> read_chunk l = Ok (id, data, r) ->
  l = write_chunk id data ++ r /\ length id = 4 /\ (N.of_nat (length data) <= MAXIMUM_CHUNK_SIZE)%N /\ bytes_ok r = true.
Proof.
  intros Hb H. unfold read_chunk in H. destruct (read_exact 4 l) as [[i r0]| |] eqn:E0; cbn [obind] in H; try discriminate.
  destruct (read_be32 r0) as [[size r1]| |] eqn:E1; cbn [obind] in H; try discriminate.
  destruct (N.ltb_spec MAXIMUM_CHUNK_SIZE size) as [L|L]; [discriminate|].
  destruct (read_exact (N.to_nat size + 8) l) as [[buf r2]| |] eqn:E2; cbn [obind] in H; try discriminate.
  destruct (read_be32 r2) as [[c r3]| |] eqn:E3; cbn [obind] in H; try discriminate.
  destruct (N.eqb_spec c (pce_crc buf)) as [Ec|]; [|discriminate].
  assert (i = id) by congruence. assert (Esk : skipn 8 buf = data) by congruence. assert (r3 = r) by congruence. subst i r3. clear H.
  apply read_exact_inv in E0 as [-> Li]. apply read_exact_inv in E2 as [E2 Lb].
  assert (Hs : exists q, buf = id ++ be32 size ++ q /\ length q = N.to_nat size).
  { unfold read_be32 in E1. destruct r0 as [|a [|b [|x [|y t]]]]; try discriminate.
    assert (size = ((a * 256 + b) * 256 + x) * 256 + y)%N by congruence.
    assert (Hq : bytes_ok [a; b; x; y] = true).
    { rewrite bytes_ok_app in Hb. apply andb_prop in Hb as [_ Hb]. change (a :: b :: x :: y :: t) with ([a; b; x; y] ++ t) in Hb.
      rewrite bytes_ok_app in Hb. apply andb_prop in Hb as [Hb _]. exact Hb. }
    pose proof (proj1 (be32_of_bytes a b x y Hq)) as E4.
    exists (skipn 8 buf). split.
    - transitivity (firstn 8 buf ++ skipn 8 buf); [symmetry; apply firstn_skipn|]. rewrite app_assoc. f_equal.
      assert (firstn 8 buf = firstn 8 (buf ++ r2)) as -> by (rewrite firstn_app; replace (8 - length buf) with 0 by lia; rewrite firstn_O, app_nil_r; reflexivity).
      rewrite <- E2. subst size. rewrite E4. change (a :: b :: x :: y :: t) with ([a; b; x; y] ++ t). rewrite app_assoc.
      rewrite firstn_app. rewrite app_length, Li. cbn [length plus Nat.sub]. rewrite firstn_O, app_nil_r. apply firstn_all2. rewrite app_length, Li. cbn. lia.
    - rewrite skipn_length. lia. }
  destruct Hs as (q & Eb & Lq). assert (data = q) as ->.
  { rewrite <- Esk, Eb, app_assoc. rewrite skipn_app. rewrite app_length, Li, be32_length. cbn [plus Nat.sub]. rewrite skipn_all2 by (rewrite app_length, Li, be32_length; lia). reflexivity. }
  assert (Hbr : bytes_ok r2 = true).
  { rewrite E2, bytes_ok_app in Hb. apply andb_prop in Hb as [_ Hb]. exact Hb. }
  assert (Er : r2 = be32 c ++ r /\ bytes_ok r = true).
  { unfold read_be32 in E3. destruct r2 as [|a [|b [|x [|y t]]]]; try discriminate.
    assert (c = ((a * 256 + b) * 256 + x) * 256 + y)%N by congruence. assert (t = r) by congruence. subst t.
    change (a :: b :: x :: y :: r) with ([a; b; x; y] ++ r) in Hbr. rewrite bytes_ok_app in Hbr. apply andb_prop in Hbr as [H1 H2].
    rewrite H, (proj1 (be32_of_bytes a b x y H1)). auto. }
  destruct Er as [Er Hr]. split; [|split; [exact Li|split; [rewrite Lq, N2Nat.id; exact L|exact Hr]]].
  rewrite E2, Er, Ec. unfold write_chunk. rewrite Lq, N2Nat.id.
  rewrite as_u32_small by (unfold MAXIMUM_CHUNK_SIZE in L; lia). rewrite <- Eb. rewrite <- app_assoc. reflexivity.
Qed.

Definition alt_in (cs : list Chunk) : Prop := exists data, In (SECT, data) cs /\ N.testbit (nth 6 data 0%N) 1 = true.
Definition bad (cs : list Chunk) : Prop := (exists data, In (OFFS, data) cs /\ length data < 4) \/ alt_in cs.
Definition no_sect (cs : list Chunk) : Prop := forall data, ~ In (SECT, data) cs.
Definition heads_ok (l : list N) : Prop := (l = [] \/ l = [0] \/ l = [1] \/ l = [0; 1] \/ l = [1; 0])%N.
Record inv (pre : list Chunk) (s : PsiLoad) : Prop := mkInv {
  i_alt : cx_alternate (ps_ctx s) = true -> alt_in pre;
  i_heads : (ps_heads s = [] /\ no_sect pre) \/ (ps_heads s <> [] /\ exists data, In (SECT, data) pre);
  i_cur : forall ti, ps_current s = Some ti -> exists m, nth_error (di_pool (ps_img s)) ti = Some (TMeta m);
  i_ok : heads_ok (ps_heads s);
  i_tracks : forall ch, ch_in ch (ps_tracks s) = true -> (ch_h ch < 2)%N }.
Lemma alt_app cs cs' : alt_in cs -> alt_in (cs ++ cs').
Proof. intros (x & H & E). exists x. split; [apply in_or_app; auto|exact E]. Qed.
Lemma bad_app cs cs' : bad cs -> bad (cs ++ cs').
Proof. intros [(x & H & E)|H]; [left; exists x; split; [apply in_or_app; auto|exact E]|right; apply alt_app; exact H]. Qed.
Lemma set_insert_ok h l : heads_ok l -> (h < 2)%N -> heads_ok (set_insert h l) /\ set_insert h l <> [].
Proof.
  intros H Hh. assert (E : h = 0%N \/ h = 1%N) by lia. destruct E as [-> | ->]; destruct H as [->|[->|[->|[->| ->]]]]; cbn; unfold heads_ok; split; auto 7; discriminate.
Qed.
(* adding a sector *)
Lemma psi_add_inv d cur p : (forall ti, cur = Some ti -> exists m, nth_error (di_pool d) ti = Some (TMeta m)) ->
  match psi_add d cur p with
  | Ok d' => forall ti, cur = Some ti -> exists m, nth_error (di_pool d') ti = Some (TMeta m)
  | Panic => as_alternate p = true
  | Err _ => True
  end.
Proof.
  intros H. unfold psi_add. destruct cur as [ti|]; [|exact I]. destruct (H ti eq_refl) as (m & E). unfold oindex. rewrite E. cbn [obind].
  assert (A : mt_add_sector m p = Panic -> as_alternate p = true) by (unfold mt_add_sector; destruct (as_alternate p); [reflexivity|discriminate]).
  destruct (mt_add_sector m p) as [m'| |] eqn:Em; cbn [obind]; [|exact I|auto].
  intros x Ex. injection Ex as <-. exists m'. cbn [with_pool di_pool]. rewrite nth_error_upd_same; [reflexivity|]. apply nth_error_Some. congruence.
Qed.
Lemma no_sect_app pre id data : no_sect pre -> id <> SECT -> no_sect (pre ++ [(id, data)]).
Proof. intros H E x Hx. apply in_app_or in Hx as [Hx|[Hx|[]]]; [exact (H x Hx)|congruence]. Qed.
Lemma inv_other pre s c : inv pre s -> fst c <> SECT -> inv (pre ++ [c]) s.
Proof.
  intros [A B C D E] H. destruct c as [id data]. constructor; auto.
  - intros Ha. apply alt_app. auto.
  - destruct B as [[B1 B2]|[B1 [x B2]]]; [left; split; [exact B1|apply no_sect_app; auto]|right; split; [exact B1|exists x; apply in_or_app; auto]].
Qed.
Lemma add_meta_pool d ch d' ti : add_track_metasector d ch = (d', Ok ti) ->
  (ch_h ch < 2)%N /\ exists m, nth_error (di_pool d') ti = Some (TMeta m).
Proof.
  unfold add_track_metasector. destruct (N.leb_spec 2 (ch_h ch)) as [L|L]; [discriminate|].
  destruct (res_rejects d RMetaSector); [discriminate|]. intros E. split; [exact L|].
  assert (ti = length (di_pool d)) by (injection E; auto). subst ti.
  match type of E with (?a, _) = _ => assert (d' = a) by congruence end. subst d'.
  eexists. unfold push_track, with_res. cbn [di_pool]. rewrite nth_error_app2, Nat.sub_diag by lia. reflexivity.
Qed.
Lemma add_meta_panics d ch d' : add_track_metasector d ch <> (d', Panic).
Proof. unfold add_track_metasector. destruct (2 <=? ch_h ch)%N; [discriminate|]. destruct (res_rejects d RMetaSector); discriminate. Qed.
Lemma ch_in_insert x ch l : ch_in x (ch_insert ch l) = true -> ch_in x l = true \/ ch_h x = ch_h ch.
Proof.
  unfold ch_insert. fold (ch_in ch l). destruct (ch_in ch l); [auto|]. unfold ch_in. rewrite existsb_app. intros H. apply orb_prop in H as [H|H]; [auto|].
  cbn [existsb] in H. rewrite orb_false_r in H. apply andb_prop in H as [_ H]. apply N.eqb_eq in H. auto.
Qed.
Lemma step_inv pre s id data : inv pre s ->
  match psi_step s (psi_type id) data with
  | Ok s' => inv (pre ++ [(id, data)]) s'
  | Panic => bad (pre ++ [(id, data)])
  | Err _ => True
  end.
Proof.
  intros Hi. pose proof (psi_type_inv id) as T.
  assert (Other : id <> SECT -> inv (pre ++ [(id, data)]) s) by (intros; apply inv_other; auto).
  assert (Dec : psi_type id = PsiSectorHeader \/ id <> SECT).
  { destruct (list_eq_dec N.eq_dec id SECT) as [->|N]; [left; reflexivity|right; exact N]. }
  destruct Dec as [Et|Hns].
  - rewrite Et in *. subst id. clear Other. cbn [psi_step].
    destruct data as [|c1 [|c0 [|h [|num [|z1 [|z0 [|fl [|fill more]]]]]]]]; try exact I.
    assert (Hthis : N.testbit fl 1 = true -> alt_in (pre ++ [(SECT, c1 :: c0 :: h :: num :: z1 :: z0 :: fl :: fill :: more)])).
    { intros H. eexists. split; [apply in_or_app; right; left; reflexivity|exact H]. }
    remember (c1 :: c0 :: h :: num :: z1 :: z0 :: fl :: fill :: more) as data eqn:Ed. clear Ed. unfold psi_sect.
    set (c := (c1 * 256 + c0)%N) in *. set (z := (z1 * 256 + z0)%N) in *. clearbody c z.
    destruct Hi as [A B C D E].
    match goal with |- match (let! _ := ?e in _) with _ => _ end => 
      assert (G : match e with
                  | Ok (d, tracks, cur) => (h < 2)%N /\ (forall ti, cur = Some ti -> exists m, nth_error (di_pool d) ti = Some (TMeta m)) /\ (forall ch, ch_in ch tracks = true -> (ch_h ch < 2)%N)
                  | Err _ => True | Panic => False end) end.
    { destruct (ch_in (mkCh c h) (ps_tracks s)) eqn:Ein.
      - split; [exact (E _ Ein)|]. split; assumption.
      - destruct (add_track_metasector (ps_img s) (mkCh c h)) as [d r] eqn:Ea. destruct r as [ti| |]; cbn [obind]; [|exact I|exact (add_meta_panics _ _ _ Ea)].
        destruct (add_meta_pool _ _ _ _ Ea) as [Hh Hm]. split; [exact Hh|]. split.
        + intros t2 E2. injection E2 as <-. exact Hm.
        + intros ch Hc. apply ch_in_insert in Hc as [Hc|Hc]; [exact (E _ Hc)|rewrite Hc; exact Hh]. }
    match goal with |- match (let! _ := ?e in _) with _ => _ end => destruct e as [[[d tracks] cur]| |] end; cbn [obind]; [|exact I|destruct G].
    destruct G as (Hh & Hcur & Htr). destruct (set_insert_ok _ _ D Hh) as [S1 S2].
    rewrite flag0, flag1, flag2. destruct (N.testbit fl 0).
    + cbn [cx_data_crc cx_alternate].
      match goal with |- context [psi_add d cur ?p] => pose proof (psi_add_inv d cur p Hcur) as P; destruct (psi_add d cur p) as [d'| |] end; cbn [obind]; [|exact I|].
      * constructor; cbn [ps_ctx ps_heads ps_current ps_img ps_tracks ctx_default cx_alternate]; auto; [discriminate|]. right. split; [exact S2|]. eexists. apply in_or_app. right. left. reflexivity.
      * right. apply Hthis. exact P.
    + constructor; cbn [ps_ctx ps_heads ps_current ps_img ps_tracks cx_alternate]; auto. right. split; [exact S2|]. eexists. apply in_or_app. right. left. reflexivity.
  - specialize (Other Hns). unfold psi_step. destruct (psi_type id) eqn:Et; try exact Other.
    + contradiction || (exfalso; congruence).
    + destruct Hi as [A B C D E]. destruct (cx_phys (ps_ctx s)) as [phys|]; [|exact I].
      match goal with |- context [psi_add ?d ?cur ?p] => pose proof (psi_add_inv d cur p C) as P; destruct (psi_add d cur p) as [d'| |] end; cbn [obind]; [|exact I|].
      * destruct Other as [A' B' C' D' E']. constructor; cbn [ps_ctx ps_heads ps_current ps_img ps_tracks ctx_default cx_alternate]; auto; discriminate.
      * right. apply alt_app. auto.
    + destruct data as [|c [|h [|num [|n [|fl [|enc more]]]]]]; try exact I.
      destruct Other as [A' B' C' D' E']. constructor; cbn [ps_ctx ps_heads ps_current ps_img ps_tracks cx_alternate]; auto.
    + destruct (Nat.ltb_spec (length data) 4) as [L|L]; [|exact Other]. left. exists data. split; [|exact L]. apply in_or_app. right. left. rewrite T. reflexivity.
Qed.
Definition wellformed (c : Chunk) : Prop := length (fst c) = 4 /\ small c.
Lemma loop_inv : forall f pre s id data rest, length rest <= f -> bytes_ok rest = true -> inv pre s ->
  match psi_loop f s (psi_type id) data rest with
  | Ok s' => exists body ed cs r, (id, data) :: cs = body ++ [(END_, ed)] /\ rest = chunks_bytes cs ++ r /\ Forall wellformed cs /\
       Forall (fun c => fst c <> END_) body /\ inv (pre ++ body) s'
  | Panic => exists cs r, rest = chunks_bytes cs ++ r /\ Forall wellformed cs /\ Forall (fun c => fst c <> END_) ((id, data) :: cs) /\ bad (pre ++ (id, data) :: cs)
  | Err _ => True
  end.
Proof.
  induction f as [f IH] using lt_wf_ind. intros pre s id data rest Hf Hb Hi.
  destruct (list_eq_dec N.eq_dec id END_) as [->|Hne].
  - change (psi_type END_) with PsiEnd. rewrite psi_loop_end. exists [], data, [], rest. rewrite app_nil_r. cbn [chunks_bytes flat_map app].
    repeat (split; [reflexivity || constructor|]). exact Hi.
  - assert (Ht : psi_type id <> PsiEnd) by (intros E; pose proof (psi_type_inv id) as T; rewrite E in T; contradiction).
    pose proof (step_inv pre s id data Hi) as S1.
    destruct f as [|f].
    + destruct rest; [|cbn in Hf; lia].
      assert (E : psi_loop 0 s (psi_type id) data [] = let! s := psi_step s (psi_type id) data in Err IoError) by (destruct (psi_type id); try congruence; reflexivity).
      rewrite E. destruct (psi_step s (psi_type id) data) as [s'| |]; cbn [obind]; [exact I|exact I|].
      exists [], []. split; [reflexivity|]. split; [constructor|]. split; [constructor; [exact Hne|constructor]|exact S1].
    + rewrite psi_loop_step by exact Ht. destruct (psi_step s (psi_type id) data) as [s'| |]; cbn [obind]; [|exact I|].
      2: { exists [], rest. split; [reflexivity|]. split; [constructor|]. split; [constructor; [exact Hne|constructor]|exact S1]. }
      unfold psi_read_chunk. destruct (read_chunk rest) as [[[id2 data2] r2]| |] eqn:Er; cbn [obind]; [|exact I|].
      * destruct (read_chunk_inv _ _ _ _ Hb Er) as (-> & L4 & Lm & Hb2).
        assert (Hl : length r2 <= f). { rewrite app_length, write_chunk_length in Hf by exact L4. lia. }
        specialize (IH f ltac:(lia) (pre ++ [(id, data)]) s' id2 data2 r2 Hl Hb2 S1).
        assert (Hw : wellformed (id2, data2)) by (split; [exact L4|exact Lm]).
        destruct (psi_loop f s' (psi_type id2) data2 r2) as [s2| |]; [|exact I|].
        -- destruct IH as (body & ed & cs & r & E1 & E2 & E3 & E4 & E5). exists ((id, data) :: body), ed, ((id2, data2) :: cs), r.
           split; [cbn [app]; rewrite E1; reflexivity|]. split; [unfold chunks_bytes; cbn [flat_map fst snd]; fold (chunks_bytes cs); rewrite E2, <- app_assoc; reflexivity|].
           split; [constructor; assumption|]. split; [constructor; assumption|]. rewrite <- app_assoc in E5. exact E5.
        -- destruct IH as (cs & r & E2 & E3 & E4 & E5). exists ((id2, data2) :: cs), r.
           split; [unfold chunks_bytes; cbn [flat_map fst snd]; fold (chunks_bytes cs); rewrite E2, <- app_assoc; reflexivity|].
           split; [constructor; assumption|]. split; [constructor; assumption|]. rewrite <- app_assoc in E5. exact E5.
      * exfalso. unfold read_chunk in Er. destruct (read_exact 4 rest) as [[i r0]| |] eqn:E0; cbn [obind] in Er; try discriminate; [|exact (read_exact_no_panic _ _ E0)].
        destruct (read_be32 r0) as [[size r1]| |] eqn:E1; cbn [obind] in Er; try discriminate.
        2: { unfold read_be32 in E1. destruct r0 as [|? [|? [|? [|? ?]]]]; discriminate. }
        destruct (MAXIMUM_CHUNK_SIZE <? size)%N; [discriminate|].
        destruct (read_exact (N.to_nat size + 8) rest) as [[buf r2]| |] eqn:E2; cbn [obind] in Er; try discriminate; [|exact (read_exact_no_panic _ _ E2)].
        destruct (read_be32 r2) as [[c r3]| |] eqn:E3; cbn [obind] in Er; try discriminate; [destruct (_ =? _)%N; discriminate|].
        unfold read_be32 in E3. destruct r2 as [|? [|? [|? [|? ?]]]]; discriminate.
Qed.
Lemma start_inv : inv [] (mkPS di_default ctx_default [] [] None).
Proof. constructor; cbn; try discriminate. - left. split; [reflexivity|]. intros x []. - unfold heads_ok. auto. Qed.
