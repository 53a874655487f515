(* Pfi2_proofs.v - PFI files: chunks and tracks. *)
From Verif Require Import Base Base_lemmas Chs_model BitRing_model Mfm_model Types_model System34_model MetaSector_model BitStream_model
  DiskImage_model DiskImage_spec DiskImage_proofs Raw_model Crc32_model Crc32_proofs Pce_model Pce_proofs Imd2_proofs Huff_proofs Pll_model Flux_model Flux_spec Flux_proofs Pfi_model Pfi_spec Pfi_proofs.
From Coq Require Import Lia.
Import ListNotations.
Local Open Scope nat_scope.

(* the chunk layer, as in Pce_proofs.v and Psi2_proofs.v *)
Lemma read_parts_max max id size data c rest : length id = 4 -> N.to_nat size = length data -> (size < 4294967296)%N -> (c < 4294967296)%N ->
  read_chunk_max max (id ++ be32 size ++ data ++ be32 c ++ rest) =
  if (max <? size)%N then Err FormatParseError
  else if (c =? pce_crc (id ++ be32 size ++ data))%N then Ok (id, data, rest) else Err CrcError.
Proof.
  intros Hid Hs Hs32 Hc. unfold read_chunk_max. rewrite (read_exact_app 4 id) by exact Hid. cbn [obind].
  rewrite read_be32_app by exact Hs32. cbn [obind].
  destruct (max <? size)%N; [reflexivity|].
  replace (id ++ be32 size ++ data ++ be32 c ++ rest) with ((id ++ be32 size ++ data) ++ be32 c ++ rest) by (rewrite <- !app_assoc; reflexivity).
  rewrite read_exact_app by (rewrite !app_length, be32_length; lia). cbn [obind].
  rewrite read_be32_app by exact Hc. cbn [obind].
  destruct (c =? _)%N; [|reflexivity]. f_equal. f_equal. f_equal.
  rewrite app_assoc. rewrite skipn_app, app_length, be32_length, Hid, Nat.sub_diag, skipn_O.
  rewrite skipn_all2 by (rewrite app_length, be32_length; lia). reflexivity.
Qed.
Lemma read_write_chunk_max max id data rest : length id = 4 -> length data < N.to_nat 4294967296 ->
  read_chunk_max max (write_chunk id data ++ rest) =
  if (max <? N.of_nat (length data))%N then Err FormatParseError else Ok (id, data, rest).
Proof.
  intros Hid Hl. rewrite write_chunk_parts by exact Hl. rewrite <- !app_assoc.
  rewrite read_parts_max by (auto using pce_lt; try apply pce_lt; lia). rewrite N.eqb_refl. reflexivity.
Qed.
Lemma read_chunk_max_inv max l id data r : (max < 4294967296)%N -> bytes_ok l = true -> read_chunk_max max l = Ok (id, data, r) ->
  l = write_chunk id data ++ r /\ length id = 4 /\ (N.of_nat (length data) <= max)%N /\ bytes_ok r = true.
Proof.
  intros Hmax Hb H. unfold read_chunk_max in H. destruct (read_exact 4 l) as [[i r0]| |] eqn:E0; cbn [obind] in H; try discriminate.
  destruct (read_be32 r0) as [[size r1]| |] eqn:E1; cbn [obind] in H; try discriminate.
  destruct (N.ltb_spec max size) as [L|L]; [discriminate|].
  destruct (read_exact (N.to_nat size + 8) l) as [[buf r2]| |] eqn:E2; cbn [obind] in H; try discriminate.
  destruct (read_be32 r2) as [[c r3]| |] eqn:E3; cbn [obind] in H; try discriminate.
  destruct (N.eqb_spec c (pce_crc buf)) as [Ec|]; [|discriminate].
  assert (i = id) by congruence. assert (Esk : skipn 8 buf = data) by congruence. assert (r3 = r) by congruence. subst i r3. clear H.
  apply read_exact_inv in E0 as [-> Li]. apply read_exact_inv in E2 as [E2 Lb].
  assert (Hs : exists q, buf = id ++ be32 size ++ q /\ length q = N.to_nat size).
  { unfold read_be32 in E1. destruct r0 as [|a [|b [|x [|y t]]]]; try discriminate.
    assert (size = ((a * 256 + b) * 256 + x) * 256 + y)%N by congruence.
    assert (Hq : bytes_ok [a; b; x; y] = true).
    { rewrite bytes_ok_app in Hb. apply andb_prop in Hb as [_ Hb]. change (a :: b :: x :: y :: t) with ([a; b; x; y] ++ t) in Hb.
      rewrite bytes_ok_app in Hb. apply andb_prop in Hb as [Hb _]. exact Hb. }
    pose proof (proj1 (be32_of_bytes a b x y Hq)) as E4.
    exists (skipn 8 buf). split.
    - transitivity (firstn 8 buf ++ skipn 8 buf); [symmetry; apply firstn_skipn|]. rewrite app_assoc. f_equal.
      assert (firstn 8 buf = firstn 8 (buf ++ r2)) as -> by (rewrite firstn_app; replace (8 - length buf) with 0 by lia; rewrite firstn_O, app_nil_r; reflexivity).
      rewrite <- E2. subst size. rewrite E4. change (a :: b :: x :: y :: t) with ([a; b; x; y] ++ t). rewrite app_assoc.
      rewrite firstn_app. rewrite app_length, Li. cbn [length plus Nat.sub]. rewrite firstn_O, app_nil_r. apply firstn_all2. rewrite app_length, Li. cbn. lia.
    - rewrite skipn_length. lia. }
  destruct Hs as (q & Eb & Lq). assert (data = q) as ->.
  { rewrite <- Esk, Eb, app_assoc. rewrite skipn_app. rewrite app_length, Li, be32_length. cbn [plus Nat.sub]. rewrite skipn_all2 by (rewrite app_length, Li, be32_length; lia). reflexivity. }
  assert (Hbr : bytes_ok r2 = true).
  { rewrite E2, bytes_ok_app in Hb. apply andb_prop in Hb as [_ Hb]. exact Hb. }
  assert (Er : r2 = be32 c ++ r /\ bytes_ok r = true).
  { unfold read_be32 in E3. destruct r2 as [|a [|b [|x [|y t]]]]; try discriminate.
    assert (c = ((a * 256 + b) * 256 + x) * 256 + y)%N by congruence. assert (t = r) by congruence. subst t.
    change (a :: b :: x :: y :: r) with ([a; b; x; y] ++ r) in Hbr. rewrite bytes_ok_app in Hbr. apply andb_prop in Hbr as [H1 H2].
    rewrite H, (proj1 (be32_of_bytes a b x y H1)). auto. }
  destruct Er as [Er Hr]. split; [|split; [exact Li|split; [rewrite Lq, N2Nat.id; exact L|exact Hr]]].
  rewrite E2, Er, Ec. unfold write_chunk. rewrite Lq, N2Nat.id.
  rewrite as_u32_small by lia. rewrite <- Eb. rewrite <- app_assoc. reflexivity.
Qed.
Lemma read_max_no_panic max l : read_chunk_max max l <> Panic.
Proof.
  unfold read_chunk_max. destruct (read_exact 4 l) as [[i r0]| |] eqn:E0; cbn [obind]; try discriminate; [|exfalso; exact (read_exact_no_panic _ _ E0)].
  destruct (read_be32 r0) as [[size r1]| |] eqn:E1; cbn [obind]; try discriminate.
  2: { unfold read_be32 in E1. destruct r0 as [|? [|? [|? [|? ?]]]]; discriminate. }
  destruct (max <? size)%N; [discriminate|].
  destruct (read_exact (N.to_nat size + 8) l) as [[buf r2]| |] eqn:E2; cbn [obind]; try discriminate; [|exfalso; exact (read_exact_no_panic _ _ E2)].
  destruct (read_be32 r2) as [[c r3]| |] eqn:E3; cbn [obind]; try discriminate; [destruct (_ =? _)%N; discriminate|].
  unfold read_be32 in E3. destruct r2 as [|? [|? [|? [|? ?]]]]; discriminate.
Qed.
Lemma id_eqb_eq a b : id_eqb a b = true -> a = b.
Proof. unfold id_eqb. destruct (list_eq_dec N.eq_dec a b); [auto|discriminate]. Qed.
Lemma pfi_type_inv id :
  match pfi_type id with
  | PfiFileHeader => id = PFI_ | PfiTrackHeader => id = TRAK | PfiIndex => id = INDX | PfiTrackData => id = DATA | PfiEnd => id = END_ | _ => True
  end.
Proof.
  unfold pfi_type.
  repeat (match goal with |- context [if id_eqb id ?x then _ else _] => destruct (id_eqb id x) eqn:?E end; cbv iota; [try exact I; apply id_eqb_eq; assumption|]).
  exact I.
Qed.
Lemma pfi_read_write id data rest : length id = 4 -> (N.of_nat (length data) <= 0x1000000)%N ->
  pfi_read_chunk (write_chunk id data ++ rest) = Ok (pfi_type id, data, rest).
Proof.
  intros Hid H. unfold pfi_read_chunk. rewrite read_write_chunk_max by (auto; clear - H; lia).
  replace (PFI_MAXIMUM_CHUNK_SIZE <? N.of_nat (length data))%N with false by (symmetry; apply N.ltb_ge; exact H). reflexivity.
Qed.
Definition stepc (dec : PfiDecoder) (s : PfiLoad) (c : Chunk) : outcome PfiLoad := pfi_step dec s (pfi_type (fst c)) (snd c).
Definition wellformed (c : Chunk) : Prop := length (fst c) = 4 /\ small c.
Lemma chunks_step dec f s typ data rest : typ <> PfiEnd ->
  pfi_chunks dec (S f) s typ data rest = let! s := pfi_step dec s typ data in let! (typ, data, rest) := pfi_read_chunk rest in pfi_chunks dec f s typ data rest.
Proof. intros H. destruct typ; try congruence; reflexivity. Qed.
Lemma chunks_end dec f s data rest : pfi_chunks dec f s PfiEnd data rest = Ok s. Proof. destruct f; reflexivity. Qed.
Lemma type_end id : id <> END_ -> pfi_type id <> PfiEnd.
Proof. intros H E. pose proof (pfi_type_inv id) as T. rewrite E in T. auto. Qed.
Lemma chunks_fold dec ed rest : (N.of_nat (length ed) <= 0x1000000)%N ->
  forall cs s c f, Forall wellformed cs -> Forall (fun c => fst c <> END_) (c :: cs) -> length cs < f ->
  pfi_chunks dec f s (pfi_type (fst c)) (snd c) (chunks_bytes (cs ++ [(END_, ed)]) ++ rest) = ofold (stepc dec) (c :: cs) s.
Proof.
  intros Hed. induction cs as [|c2 cs IH]; intros s c f Hr Hc Hf; (destruct f as [|f]; [cbn in Hf; lia|]); rewrite chunks_step by (apply type_end; exact (Forall_inv Hc)).
  - cbn [app chunks_bytes flat_map fst snd]. rewrite app_nil_r. rewrite pfi_read_write by (auto; exact Hed).
    change (pfi_type END_) with PfiEnd. cbn [ofold]. unfold stepc. destruct (pfi_step dec s (pfi_type (fst c)) (snd c)); cbn [obind]; auto. apply chunks_end.
  - destruct (Forall_inv Hr) as [Ha Hb]. cbn [app]. unfold chunks_bytes. cbn [flat_map]. fold (chunks_bytes (cs ++ [(END_, ed)])). rewrite <- app_assoc.
    rewrite pfi_read_write by auto.
    change (ofold (stepc dec) (c :: c2 :: cs) s) with (let! s' := stepc dec s c in ofold (stepc dec) (c2 :: cs) s'). unfold stepc at 1.
    destruct (pfi_step dec s (pfi_type (fst c)) (snd c)) as [s'| |]; cbn [obind]; auto. apply IH; [exact (Forall_inv_tail Hr)|exact (Forall_inv_tail Hc)|cbn in Hf; lia].
Qed.
Lemma chunks_len cs : Forall (fun c => length (fst c) = 4) cs -> 12 * length cs <= length (chunks_bytes cs).
Proof.
  induction cs as [|c cs IH]; intros H; [cbn; lia|]. unfold chunks_bytes. cbn [flat_map length]. rewrite app_length.
  rewrite write_chunk_length by exact (Forall_inv H). fold (chunks_bytes cs). specialize (IH (Forall_inv_tail H)). lia.
Qed.
(* what was read, whatever the outcome *)
Lemma chunks_inv dec : forall f s id data rest, length rest <= f -> bytes_ok rest = true ->
  match pfi_chunks dec f s (pfi_type id) data rest with
  | Ok s' => exists body ed cs r, (id, data) :: cs = body ++ [(END_, ed)] /\ rest = chunks_bytes cs ++ r /\ Forall wellformed cs /\
      Forall (fun c => fst c <> END_) body /\ ofold (stepc dec) body s = Ok s'
  | Panic => exists cs r, rest = chunks_bytes cs ++ r /\ Forall wellformed cs /\ ofold (stepc dec) ((id, data) :: cs) s = Panic
  | Err _ => True
  end.
Proof.
  induction f as [f IH] using (well_founded_induction Wf_nat.lt_wf). intros s id data rest Hf Hb.
  destruct (list_eq_dec N.eq_dec id END_) as [->|Hne].
  { change (pfi_type END_) with PfiEnd. rewrite chunks_end. exists [], data, [], rest. split; [reflexivity|]. split; [reflexivity|]. split; [constructor|]. split; [constructor|reflexivity]. }
  assert (Un : forall f', pfi_chunks dec f' s (pfi_type id) data rest = let! s' := stepc dec s (id, data) in let! (typ, data, rest) := pfi_read_chunk rest in match f' with O => Panic | S f'' => pfi_chunks dec f'' s' typ data rest end).
  { intros f'. pose proof (type_end id Hne) as T. unfold stepc. cbn [fst snd]. destruct f'; cbn [pfi_chunks]; destruct (pfi_type id); try congruence; reflexivity. }
  rewrite Un. destruct (stepc dec s (id, data)) as [s'| |] eqn:Es; cbn [obind]; [|exact I|].
  2: { exists [], rest. split; [reflexivity|]. split; [constructor|]. cbn [ofold]. rewrite Es. reflexivity. }
  unfold pfi_read_chunk. destruct (read_chunk_max PFI_MAXIMUM_CHUNK_SIZE rest) as [[[id2 data2] r2]| |] eqn:Er; cbn [obind]; [|exact I|exfalso; exact (read_max_no_panic _ _ Er)].
  destruct (read_chunk_max_inv PFI_MAXIMUM_CHUNK_SIZE _ _ _ _ ltac:(reflexivity) Hb Er) as (-> & L4 & Lm & Hb2).
  rewrite app_length, write_chunk_length in Hf by exact L4. destruct f as [|f]; [lia|].
  specialize (IH f ltac:(lia) s' id2 data2 r2 ltac:(lia) Hb2).
  assert (Hw : wellformed (id2, data2)) by (split; [exact L4|exact Lm]).
  destruct (pfi_chunks dec f s' (pfi_type id2) data2 r2) as [s2| |]; [|exact I|].
  - destruct IH as (body & ed & cs & r & E1 & E2 & E3 & E4 & E5). exists ((id, data) :: body), ed, ((id2, data2) :: cs), r.
    split; [cbn [app]; rewrite E1; reflexivity|]. split; [unfold chunks_bytes; cbn [flat_map fst snd]; fold (chunks_bytes cs); rewrite E2, <- app_assoc; reflexivity|].
    split; [constructor; assumption|]. split; [constructor; assumption|]. cbn [ofold]. rewrite Es. exact E5.
  - destruct IH as (cs & r & E2 & E3 & E5). exists ((id2, data2) :: cs), r.
    split; [unfold chunks_bytes; cbn [flat_map fst snd]; fold (chunks_bytes cs); rewrite E2, <- app_assoc; reflexivity|].
    split; [constructor; assumption|]. change (ofold (stepc dec) ((id, data) :: (id2, data2) :: cs) s) with (let! x := stepc dec s (id, data) in ofold (stepc dec) ((id2, data2) :: cs) x). rewrite Es. exact E5.
Qed.
(* ---- single chunks ---- *)
Lemma aside_step dec c s : aside c -> stepc dec s c = Ok s.
Proof.
  intros (_ & H1 & H2 & H3 & H4). unfold stepc. pose proof (pfi_type_inv (fst c)) as T. unfold pfi_step. destruct (pfi_type (fst c)); try reflexivity; contradiction.
Qed.
Lemma aside_fold dec cs cs' s : Forall aside cs -> ofold (stepc dec) (cs ++ cs') s = ofold (stepc dec) cs' s.
Proof.
  intros H. rewrite ofold_app. replace (ofold (stepc dec) cs s) with (Ok (A := PfiLoad) s); [reflexivity|].
  induction cs as [|c cs IH]; [reflexivity|]. cbn [ofold]. rewrite aside_step by exact (Forall_inv H). cbn [obind]. exact (IH (Forall_inv_tail H)).
Qed.
Lemma be32s_app x l : (x < 2 ^ 32)%N -> pfi_be32s (be32 x ++ l) = x :: pfi_be32s l.
Proof. intros H. unfold be32. cbn [app pfi_be32s]. rewrite be32_val by exact H. reflexivity. Qed.
Lemma be32s_all l : u32s l -> pfi_be32s (flat_map be32 l) = l.
Proof. induction l as [|x l IH]; intros H; [reflexivity|]. cbn [flat_map]. rewrite be32s_app by exact (Forall_inv H). rewrite IH by exact (Forall_inv_tail H). reflexivity. Qed.
Lemma trak_step dec s c h k more : u32s [c; h; k] ->
  stepc dec s (TRAK, be32 c ++ be32 h ++ be32 k ++ more) =
  Ok (mkPF (pf_img s) k (pf_index s) (set_insert (as_u16 c) (pf_cyls s)) (set_insert (as_u8 h) (pf_heads s)) (pf_past s)).
Proof.
  intros H. pose proof (Forall_inv H) as H1. pose proof (Forall_inv (Forall_inv_tail H)) as H2. pose proof (Forall_inv (Forall_inv_tail (Forall_inv_tail H))) as H3. cbv beta in H1, H2, H3.
  unfold stepc. cbn [fst snd]. change (pfi_type TRAK) with PfiTrackHeader. unfold pfi_step.
  replace (firstn 12 (be32 c ++ be32 h ++ be32 k ++ more)) with (be32 c ++ be32 h ++ be32 k ++ []) by reflexivity.
  rewrite !be32s_app by assumption. reflexivity.
Qed.
(* ---- the position of the next track ---- *)
Lemma ch_iter_ok d s : wf d s ->
  track_ch_iter d = Ok (map tk_ch (flat_map (fun i => opt_list (nth_error (fst s) i) ++ opt_list (nth_error (snd s) i)) (seq 0 (Nat.max (length (fst s)) (length (snd s)))))).
Proof.
  intros [[_ Hv] [H0 H1]]. unfold track_ch_iter, track_idx_iter.
  assert (L0 : length (di_map0 d) = length (fst s)) by (apply (f_equal (@length _)) in H0; rewrite !map_length in H0; exact H0).
  assert (L1 : length (di_map1 d) = length (snd s)) by (apply (f_equal (@length _)) in H1; rewrite !map_length in H1; exact H1).
  rewrite L0, L1. generalize (seq 0 (Nat.max (length (fst s)) (length (snd s)))). intros is.
  set (g := fun ti => let! t := oindex (di_pool d) ti in Ok (tk_ch t)).
  assert (App : forall a b, omapM g (a ++ b) = let! x := omapM g a in let! y := omapM g b in Ok (x ++ y)).
  { induction a as [|u a IH]; intros b; cbn [app omapM obind]; [destruct (omapM g b); reflexivity|]. rewrite IH. destruct (g u); cbn [obind]; [|reflexivity|reflexivity].
    destruct (omapM g a); cbn [obind]; [|reflexivity|reflexivity]. destruct (omapM g b); reflexivity. }
  assert (One : forall m l i, map (nth_error (di_pool d)) m = map Some l -> omapM g (opt_list (nth_error m i)) = Ok (map tk_ch (opt_list (nth_error l i)))).
  { intros m l i E. pose proof (map_some_nth (nth_error (di_pool d)) m l i E) as Q. apply (f_equal (@length _)) in E. rewrite !map_length in E.
    destruct (nth_error m i) as [ti|] eqn:Ei; cbn [opt_list omapM].
    - rewrite <- Q. unfold g, oindex. destruct (nth_error (di_pool d) ti) as [t|] eqn:Et; [reflexivity|]. exfalso. symmetry in Q. apply nth_error_None in Q. assert (i < length m) by (apply nth_error_Some; congruence). lia.
    - rewrite <- Q. reflexivity. }
  induction is as [|i is IH]; [reflexivity|]. cbn [flat_map]. rewrite App, App, (One _ _ _ H0), (One _ _ _ H1). cbn [obind]. rewrite IH. cbn [obind]. rewrite !map_app. reflexivity.
Qed.
Lemma rev_last {A} (l : list A) x : rev (l ++ [x]) = x :: rev l. Proof. apply rev_unit. Qed.
Lemma last_ch_ok d s heads n f : wf d s -> heads = 1 \/ heads = 2 -> laid heads (S n) f s -> (forall i, i < S n -> tk_ch (f i) = ch_at heads i) ->
  exists l, track_ch_iter d = Ok (l ++ [ch_at heads n]).
Proof.
  intros W Hh (L0 & L1 & LF) HF. rewrite (ch_iter_ok d s W).
  assert (Q : exists l, map tk_ch (flat_map (fun i => opt_list (nth_error (fst s) i) ++ opt_list (nth_error (snd s) i)) (seq 0 (Nat.max (length (fst s)) (length (snd s))))) = l ++ [ch_at heads n]).
    { pose proof (LF n ltac:(lia)) as Hnth. pose proof (HF n ltac:(lia)) as Hch. destruct Hh as [-> | ->].
      - rewrite Nat.mod_1_r, Nat.div_1_r in Hnth. cbn [N.of_nat side] in Hnth. rewrite Nat.div_1_r in L0. cbn [Nat.eqb] in L1.
        assert (E : Nat.max (length (fst s)) (length (snd s)) = S n) by lia. rewrite E, seq_snoc, flat_map_app, map_app. cbn [Nat.add flat_map]. rewrite Hnth.
        rewrite (proj2 (nth_error_None (snd s) n)) by lia. cbn [opt_list app map]. rewrite Hch. eexists. reflexivity.
      - cbn [Nat.eqb] in L1. replace (S n + 2 - 1) with (n + 2) in L0 by lia. pose proof (Nat.div_mod n 2 ltac:(discriminate)) as D. pose proof (Nat.mod_upper_bound n 2 ltac:(discriminate)) as U.
        set (q := n / 2) in *. set (r := n mod 2) in *. assert (Hr : r = 0 \/ r = 1) by lia. destruct Hr as [R|R]; rewrite R in *.
        + assert (E1 : (n + 2) / 2 = q + 1) by (symmetry; apply (Nat.div_unique _ 2 _ 0); lia). assert (E2 : S n / 2 = q) by (symmetry; apply (Nat.div_unique _ 2 q 1); lia). rewrite E1 in L0. rewrite E2 in L1.
          cbn [N.of_nat side] in Hnth. assert (E : Nat.max (length (fst s)) (length (snd s)) = S q) by lia. rewrite E, seq_snoc, flat_map_app, map_app. cbn [Nat.add flat_map]. rewrite Hnth.
          rewrite (proj2 (nth_error_None (snd s) q)) by lia. cbn [opt_list app map]. rewrite Hch. eexists. reflexivity.
        + assert (E1 : (n + 2) / 2 = q + 1) by (symmetry; apply (Nat.div_unique _ 2 _ 1); lia). assert (E2 : S n / 2 = q + 1) by (symmetry; apply (Nat.div_unique _ 2 _ 0); lia). rewrite E1 in L0. rewrite E2 in L1.
          cbn [N.of_nat side Pos.of_succ_nat] in Hnth. assert (E : Nat.max (length (fst s)) (length (snd s)) = S q) by lia. rewrite E, seq_snoc, flat_map_app, map_app. cbn [Nat.add flat_map]. rewrite Hnth.
          cbn [opt_list]. rewrite !map_app. cbn [map]. rewrite Hch, app_nil_r. rewrite app_assoc. eexists. reflexivity. }
  destruct Q as (l & ->). eexists. reflexivity.
Qed.
Lemma next_ch_ok d s heads n f : wf d s -> heads = 1 \/ heads = 2 -> laid heads n f s -> (forall i, i < n -> tk_ch (f i) = ch_at heads i) -> (N.of_nat n < 65535 * N.of_nat heads)%N ->
  pfi_next_ch d (N.of_nat (Nat.min heads (S n))) = Ok (ch_at heads n).
Proof.
  intros W Hh La HF Hn. unfold pfi_next_ch.
  destruct n as [|n].
  - destruct La as (L0 & L1 & LF). rewrite (ch_iter_ok d s W). cbn [obind]. assert (E0 : fst s = [] /\ snd s = []).
    { destruct Hh as [-> | ->]; cbn in L0, L1; split; apply length_zero_iff_nil; assumption. }
    destruct E0 as [-> ->]. cbn [length Nat.max seq flat_map map rev]. destruct Hh as [-> | ->]; reflexivity.
  - destruct (last_ch_ok d s heads n f W Hh La HF) as (l & ->). cbn [obind]. rewrite rev_unit. unfold next_track_unchecked. cbn [ch_c ch_h ch_at].
    destruct Hh as [-> | ->].
    + replace (Nat.min 1 (S (S n))) with 1 by lia. rewrite Nat.mod_1_r, Nat.div_1_r. change (N.of_nat 0 <? N.of_nat 1 - 1)%N with false. cbn iota.
      replace (N.of_nat n =? 65535)%N with false by (symmetry; apply N.eqb_neq; lia). unfold ch_at. rewrite Nat.mod_1_r, Nat.div_1_r. f_equal. f_equal; lia.
    + replace (Nat.min 2 (S (S n))) with 2 by lia. change (N.of_nat 2 - 1)%N with 1%N. pose proof (Nat.div_mod n 2 ltac:(discriminate)) as D. pose proof (Nat.mod_upper_bound n 2 ltac:(discriminate)) as U.
      unfold ch_at. set (q := n / 2) in *. set (r := n mod 2) in *. assert (Hr : r = 0 \/ r = 1) by lia. destruct Hr as [R|R]; rewrite R in *.
      * change (N.of_nat 0 <? 1)%N with true. cbn iota. assert (E3 : S n / 2 = q) by (symmetry; apply (Nat.div_unique _ 2 q 1); lia). assert (E4 : S n mod 2 = 1) by (symmetry; apply (Nat.mod_unique _ 2 q); lia).
        rewrite E3, E4. reflexivity.
      * change (N.of_nat 1 <? 1)%N with false. cbn iota. assert (E3 : S n / 2 = q + 1) by (symmetry; apply (Nat.div_unique _ 2 _ 0); lia). assert (E4 : S n mod 2 = 0) by (symmetry; apply (Nat.mod_unique _ 2 (q + 1)); lia).
        replace (N.of_nat q =? 65535)%N with false by (symmetry; apply N.eqb_neq; clear - D Hn; lia). rewrite E3, E4. replace (N.of_nat q + 1)%N with (N.of_nat (q + 1)) by lia. reflexivity.
Qed.
