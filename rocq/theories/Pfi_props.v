(* Pfi_props.v - C65: PCE flux files. *)
From Verif Require Import Base Base_lemmas Chs_model BitRing_model Mfm_model Types_model System34_model MetaSector_model BitStream_model
  DiskImage_model DiskImage_spec DiskImage_proofs Raw_model Crc32_model Pce_model Pce_proofs Huff_proofs Pll_model Flux_model Flux_spec Flux_proofs Pfi_model Pfi_spec Pfi_proofs Pfi2_proofs Pfi3_proofs.
From Coq Require Import Lia.
Import ListNotations.
Local Open Scope nat_scope.

Lemma default_free : flux_free di_default. Proof. split; [reflexivity|left; reflexivity]. Qed.
Lemma default_wf : wf di_default ([], []). Proof. apply empty_wf; reflexivity. Qed.
Lemma geom_wf d g s : wf d s -> wf (with_geom d g) s. Proof. exact (fun H => H). Qed.

(* ---- C65 ---- *)
(* The data of a track is read as exactly the revolutions it stands for, and only then. *)
Theorem C65_data : forall data index revs, bytes_ok data = true -> (pfi_track_data data index = Ok revs <-> pfi_revolutions data index revs).
Proof. intros data index revs H. split; [apply data_inv; exact H|apply data_ok]. Qed.

(* A file with the tracks of one or both heads in the order of cylinders and heads is loaded as these tracks: one flux track each, at its
   cylinder and head, made of the revolutions its data stands for. *)
Theorem C65_load : forall dec header ts last end_data rest heads revss bs,
  4 <= length header -> small (PFI_, header) -> aside_ok last -> small (END_, end_data) -> Forall valid_track ts ->
  heads = 1 \/ heads = 2 -> (N.of_nat (length ts) <= 65535 * N.of_nat heads)%N -> length revss = length ts ->
  (forall i t revs, nth_error ts i = Some t -> nth_error revss i = Some revs ->
     mkCh (pt_cyl t) (pt_head t) = ch_at heads i /\ pfi_revolutions (pt_data t) (pt_index t) revs /\
     dec (firstn i (combine (map pt_clock ts) revss)) (pt_clock t) (ch_at heads i) (synthesize revs) = Ok (bs i)) ->
  exists d' s', pfi_load_image dec di_default (pfi_file header ts last end_data rest) = Ok d' /\ maps_valid d' /\ shows d' s' /\
    di_geom d' = mkCh (N.of_nat ((length ts + heads - 1) / heads)) (N.of_nat (Nat.min heads (length ts))) /\
    laid heads (length ts) (fun i => flux_track (ch_at heads i) (bs i)) s'.
Proof.
  intros dec header ts last ed rest heads revss bs H4 Hsh Hl Hed HV Hh Hn Hrl H. unfold pfi_load_image, pfi_file.
  set (cs := flat_map track_chunks ts ++ last).
  replace ((PFI_, header) :: flat_map track_chunks ts ++ last ++ [(END_, ed)]) with ((PFI_, header) :: cs ++ [(END_, ed)]) by (unfold cs; rewrite <- app_assoc; reflexivity).
  assert (As : forall l, aside_ok l -> Forall (fun c => wellformed c /\ fst c <> END_) l).
  { intros l [A B]. apply Forall_forall. intros c Ic. rewrite Forall_forall in A, B. destruct (A c Ic) as (A1 & _ & _ & _ & A2). split; [split; [exact A1|exact (B c Ic)]|exact A2]. }
  assert (Hr : Forall (fun c => wellformed c /\ fst c <> END_) cs).
  { unfold cs. apply Forall_app. split; [|apply As; exact Hl]. clear - HV As. induction ts as [|t ts IH]; [constructor|]. cbn [flat_map]. apply Forall_app. split; [|exact (IH (Forall_inv_tail HV))].
    destruct (Forall_inv HV) as [(A1 & A2 & A3) _ (S1 & S2 & S3)]. unfold track_chunks. apply Forall_app; split; [apply As; exact A1|]. cbn [app]. constructor; [split; [split; [reflexivity|exact S1]|discriminate]|].
    apply Forall_app; split; [apply As; exact A2|]. constructor; [split; [split; [reflexivity|exact S2]|discriminate]|].
    apply Forall_app; split; [apply As; exact A3|]. constructor; [split; [split; [reflexivity|exact S3]|discriminate]|constructor]. }
  assert (Hw : Forall wellformed cs) by (eapply Forall_impl; [|exact Hr]; intros c [A _]; exact A).
  assert (He : Forall (fun c => fst c <> END_) ((PFI_, header) :: cs)) by (constructor; [discriminate|]; eapply Forall_impl; [|exact Hr]; intros c [_ A]; exact A).
  remember (chunks_bytes ((PFI_, header) :: cs ++ [(END_, ed)]) ++ rest) as file eqn:Efile.
  assert (Hlen : length cs < length file).
  { rewrite Efile, app_length. pose proof (chunks_len ((PFI_, header) :: cs ++ [(END_, ed)])) as L. cbn [length] in L. rewrite app_length in L. cbn [length] in L.
    assert (Q : 12 * S (length cs + 1) <= length (chunks_bytes ((PFI_, header) :: cs ++ [(END_, ed)]))); [|lia]. apply L. constructor; [reflexivity|]. apply Forall_app. split; [|constructor; [reflexivity|constructor]].
    eapply Forall_impl; [|exact Hw]. intros c (Hc & _). exact Hc. }
  assert (Er : pfi_read_chunk file = Ok (PfiFileHeader, header, chunks_bytes (cs ++ [(END_, ed)]) ++ rest)).
  { rewrite Efile. unfold chunks_bytes. cbn [flat_map fst snd]. rewrite <- app_assoc. exact (pfi_read_write PFI_ header _ eq_refl Hsh). }
  rewrite Er. cbn [obind]. cbv iota. replace (length header <? 4) with false by (symmetry; apply Nat.ltb_ge; exact H4).
  pose proof (chunks_fold dec ed rest Hed cs (mkPF di_default 0 [] [] [] []) (PFI_, header) (length file) Hw He Hlen) as E.
  cbn [fst snd] in E. change (pfi_type PFI_) with PfiFileHeader in E. rewrite E. clear E.
  cbn [ofold]. unfold stepc at 1. cbn [fst snd]. change (pfi_type PFI_) with PfiFileHeader. cbn [pfi_step obind].
  assert (S0 : state heads 0 (fun i => flux_track (ch_at heads i) (bs i)) [] (mkPF di_default 0 [] [] [] []) ([], [])).
  { constructor; cbn [pf_img pf_cyls pf_heads pf_past]; [exact default_wf|exact default_free|apply laid_nil; exact Hh| |destruct Hh as [-> | ->]; reflexivity|reflexivity]. destruct Hh as [-> | ->]; reflexivity. }
  destruct (tracks_fold dec heads ts revss bs Hh Hrl Hn) with (n := 0) (st := mkPF di_default 0 [] [] [] []) (sm := (@nil DTrack, @nil DTrack)) as (st & sm & E & [W Fr La Cy Hd Pa]).
  - intros i t revs Ht Hrv. split; [|exact (H i t revs Ht Hrv)]. rewrite Forall_forall in HV. apply HV. eapply nth_error_In. exact Ht.
  - exact S0.
  - lia.
  - cbn [skipn] in E. unfold cs. rewrite ofold_app, E. cbn [obind]. replace last with (last ++ []) by apply app_nil_r. rewrite aside_fold by exact (proj1 Hl). cbn [ofold obind].
    eexists. exists sm. split; [reflexivity|]. pose proof (geom_wf _ (pfi_geom st) _ W) as W'. split; [exact (proj1 W')|]. split; [apply wf_shows; exact W'|]. split; [|exact La].
    cbn [with_geom di_geom]. unfold pfi_geom. rewrite Cy, Hd, !map_length, !seq_length. unfold as_u16, as_u8.
    assert (B1 : (N.of_nat ((length ts + heads - 1) / heads) < 65536)%N).
    { clear - Hn Hh. destruct Hh as [-> | ->]; [rewrite Nat.div_1_r; lia|]. pose proof (Nat.div_mod (length ts + 2 - 1) 2 ltac:(discriminate)). lia. }
    rewrite !N.mod_small; [reflexivity|destruct Hh; subst heads; lia|exact B1].
Qed.

(* ---- any file ---- *)
Definition datas (cs : list Chunk) : nat := length (filter (fun c => id_eqb (fst c) DATA) cs).
Definition index_before (pre : list Chunk) (index : list N) : Prop :=
  index = [] /\ ~ In INDX (map fst pre) \/ exists a ix b, pre = a ++ (INDX, ix) :: b /\ ~ In INDX (map fst b) /\ index = pfi_be32s ix.
Record good (pre : list Chunk) (st : PfiLoad) : Prop := mkGood {
  gd_index : index_before pre (pf_index st);
  gd_img : exists sm, wf (pf_img st) sm /\ flux_free (pf_img st) /\ length (fst sm) + length (snd sm) = datas pre /\
    forall t, In t (fst sm ++ snd sm) -> (ch_c (tk_ch t) < N.of_nat (datas pre))%N }.
Lemma good_start : good [] (mkPF di_default 0 [] [] [] []).
Proof. constructor; [left; split; [reflexivity|intros []]|]. exists ([], []). split; [exact default_wf|]. split; [exact default_free|]. split; [reflexivity|intros t []]. Qed.
Lemma datas_app a b : datas (a ++ b) = datas a + datas b.
Proof. unfold datas. rewrite filter_app, app_length. reflexivity. Qed.
Lemma index_other pre c index : fst c <> INDX -> index_before pre index -> index_before (pre ++ [c]) index.
Proof.
  intros N [[E H]|(a & ix & b & -> & H & E)].
  - left. split; [exact E|]. rewrite map_app, in_app_iff. cbn [map In]. intros [X|[X|[]]]; [exact (H X)|congruence].
  - right. exists a, ix, (b ++ [c]). rewrite <- app_assoc. split; [reflexivity|]. split; [|exact E]. rewrite map_app, in_app_iff. cbn [map In]. intros [X|[X|[]]]; [exact (H X)|congruence].
Qed.
Lemma next_any pre st sm heads : wf (pf_img st) sm -> (forall t, In t (fst sm ++ snd sm) -> (ch_c (tk_ch t) < N.of_nat (datas pre))%N) ->
  match pfi_next_ch (pf_img st) heads with Ok ch => (ch_c ch <= N.of_nat (datas pre))%N | Err _ => False | Panic => (65536 <= N.of_nat (datas pre))%N end.
Proof.
  intros W H. unfold pfi_next_ch. rewrite (ch_iter_ok _ _ W). cbn [obind]. set (l := flat_map _ _).
  assert (Hl : forall t, In t l -> In t (fst sm ++ snd sm)).
  { intros t I. unfold l in I. apply in_flat_map in I as (i & _ & I). apply in_app_iff in I as [I|I]; apply in_app_iff; [left|right];
      (destruct (nth_error _ i) as [x|] eqn:E; cbn [opt_list In] in I; [|contradiction]; destruct I as [<-|[]]; eapply nth_error_In; exact E). }
  destruct (rev (map tk_ch l)) as [|x r] eqn:Er; [cbn; lia|].
  assert (I : In x (map tk_ch l)) by (apply in_rev; rewrite Er; left; reflexivity). apply in_map_iff in I as (t & <- & I). specialize (H t (Hl t I)).
  unfold next_track_unchecked. destruct (_ <? _)%N; [cbn [ch_c]; lia|]. destruct (N.eqb_spec (ch_c (tk_ch t)) 65535) as [E|E]; [lia|cbn [ch_c]; lia].
Qed.
Lemma flux_add_head dec d ch revs d' : flux_add dec d ch revs = Ok d' -> (ch_h ch < 2)%N.
Proof. unfold flux_add, add_track_fluxstream. destruct (N.leb_spec 2 (ch_h ch)) as [L|L]; [discriminate|intros _; exact L]. Qed.
Lemma good_step dec pre st c st' : good pre st -> stepc dec st c = Ok st' -> good (pre ++ [c]) st' /\
  (fst c = DATA -> exists revs, pfi_track_data (snd c) (pf_index st) = Ok revs).
Proof.
  intros [GI GM] E. unfold stepc in E. pose proof (pfi_type_inv (fst c)) as T. destruct c as [id data]. cbn [fst snd] in *.
  assert (Keep : id <> DATA -> id <> INDX -> pf_index st' = pf_index st -> pf_img st' = pf_img st -> good (pre ++ [(id, data)]) st').
  { intros N1 N2 E1 E2. constructor; [rewrite E1; apply index_other; [exact N2|exact GI]|]. rewrite E2. destruct GM as (sm & W & Fr & L & C). exists sm. split; [exact W|]. split; [exact Fr|].
    assert (Z : datas (pre ++ [(id, data)]) = datas pre).
    { rewrite datas_app. unfold datas at 2. cbn [filter fst]. destruct (id_eqb id DATA) eqn:Q; [apply Pfi2_proofs.id_eqb_eq in Q; contradiction|]. cbn [length]. lia. }
    rewrite Z. split; assumption. }
  assert (Un : pfi_type id <> PfiTrackData -> pfi_type id <> PfiIndex -> id <> DATA /\ id <> INDX) by (intros A B; split; intros ->; [apply A|apply B]; reflexivity).
  destruct (pfi_type id) eqn:Et; cbn [pfi_step] in E.
  - injection E as <-. destruct (Un ltac:(discriminate) ltac:(discriminate)) as [A B]. split; [apply Keep; auto|intros Q; contradiction].
  - injection E as <-. destruct (Un ltac:(discriminate) ltac:(discriminate)) as [A B]. split; [apply Keep; auto|intros Q; contradiction].
  - destruct (Un ltac:(discriminate) ltac:(discriminate)) as [A B]. destruct (pfi_be32s (firstn 12 data)) as [|c1 [|c2 [|c3 [|]]]]; try discriminate. injection E as <-. split; [apply Keep; auto|intros Q; contradiction].
  - injection E as <-. subst id. split; [|discriminate]. constructor; cbn [pf_index pf_img].
    + right. exists pre, data, []. split; [reflexivity|]. split; [intros []|reflexivity].
    + assert (Z : datas (pre ++ [(INDX, data)]) = datas pre) by (rewrite datas_app; unfold datas at 2; cbn [filter fst]; change (id_eqb INDX DATA) with false; cbn [length]; lia).
      exact (eq_ind_r (fun n => exists sm, wf (pf_img st) sm /\ flux_free (pf_img st) /\ length (fst sm) + length (snd sm) = n /\ forall t, In t (fst sm ++ snd sm) -> (ch_c (tk_ch t) < N.of_nat n)%N) GM Z).
  - subst id. destruct (pfi_track_data data (pf_index st)) as [revs| |] eqn:Ed; try discriminate. cbn [obind] in E. split; [|intros _; exists revs; reflexivity].
    destruct GM as (sm & W & Fr & L & C). pose proof (next_any pre st sm (as_u8 (N.of_nat (length (pf_heads st)))) W C) as Nx.
    destruct (pfi_next_ch _ _) as [ch| |]; try discriminate. cbn [obind] in E. destruct (flux_add _ _ _ _) as [d'| |] eqn:Ea; try discriminate. cbn [obind] in E. injection E as <-.
    pose proof (flux_add_head _ _ _ _ _ Ea) as Hh. destruct (flux_add_inv _ _ _ _ _ _ W Fr Hh Ea) as (bs & _ & W' & Fr' & _).
    assert (Z : datas (pre ++ [(DATA, data)]) = datas pre + 1) by (rewrite datas_app; unfold datas at 2; cbn [filter fst]; change (id_eqb DATA DATA) with true; reflexivity).
    constructor; cbn [pf_index pf_img]; [apply index_other; [discriminate|exact GI]|]. exists (append_to sm (ch_h ch) (flux_track ch bs)). split; [exact W'|]. split; [exact Fr'|].
    set (m := datas _). assert (Zm : m = datas pre + 1) by exact Z. clearbody m. subst m.
    assert (Hc : ch_h ch = 0%N \/ ch_h ch = 1%N) by lia. split.
    + destruct Hc as [-> | ->]; cbn [append_to fst snd]; rewrite app_length; cbn [length]; lia.
    + intros t I. assert (Q : In t (fst sm ++ snd sm) \/ t = flux_track ch bs).
      { rewrite in_app_iff in I |- *. destruct Hc as [Hc|Hc]; rewrite Hc in I; cbn [append_to fst snd] in I; rewrite in_app_iff in I; cbn [In] in I; clear - I;
          [destruct I as [[I|[I|[]]]|I]; [left; left; exact I|right; symmetry; exact I|left; right; exact I]|destruct I as [I|[I|[I|[]]]]; [left; left; exact I|left; right; exact I|right; symmetry; exact I]]. }
      destruct Q as [Q| ->]; [specialize (C t Q); lia|]. rewrite flux_track_ch. lia.
  - injection E as <-. destruct (Un ltac:(discriminate) ltac:(discriminate)) as [A B]. split; [apply Keep; auto|intros Q; contradiction].
  - injection E as <-. destruct (Un ltac:(discriminate) ltac:(discriminate)) as [A B]. split; [apply Keep; auto|intros Q; contradiction].
Qed.
Lemma good_fold dec : forall cs pre st st', good pre st -> ofold (stepc dec) cs st = Ok st' -> good (pre ++ cs) st' /\
  forall a data b, cs = a ++ (DATA, data) :: b -> exists index revs, index_before (pre ++ a) index /\ pfi_track_data data index = Ok revs.
Proof.
  induction cs as [|c cs IH]; intros pre st st' G E.
  - injection E as <-. rewrite app_nil_r. split; [exact G|]. intros a data b Q. destruct a; discriminate.
  - cbn [ofold] in E. destruct (stepc dec st c) as [s1| |] eqn:E1; try discriminate. cbn [obind] in E. destruct (good_step _ _ _ _ _ G E1) as [G1 D1].
    destruct (IH _ _ _ G1 E) as [G2 D2]. rewrite <- app_assoc in G2. split; [exact G2|]. intros a data b Q. destruct a as [|x a].
    + cbn [app] in Q. injection Q as -> _. destruct (D1 eq_refl) as (revs & Er). exists (pf_index st), revs. rewrite app_nil_r. split; [exact (gd_index _ _ G)|exact Er].
    + cbn [app] in Q. injection Q as -> Q. destruct (D2 a data b Q) as (index & revs & B1 & B2). exists index, revs. rewrite <- app_assoc in B1. split; assumption.
Qed.
(* Only chunk files with well-formed data load: a header, chunks with correct sizes and CRCs, an END chunk.  Each DATA chunk holds revolutions
   for the index clocks of the last INDX chunk before it and adds one track. *)
Theorem C65_only : forall dec file d', bytes_ok file = true -> pfi_load_image dec di_default file = Ok d' ->
  exists header cs end_data rest, file = chunks_bytes ((PFI_, header) :: cs ++ [(END_, end_data)]) ++ rest /\ 4 <= length header /\
    Forall (fun c => length (fst c) = 4 /\ small c /\ fst c <> END_) cs /\
    length (di_map0 d') + length (di_map1 d') = length (filter (fun c => id_eqb (fst c) DATA) cs) /\
    forall a data b, cs = a ++ (DATA, data) :: b -> exists a1 ix a2 revs, a = a1 ++ (INDX, ix) :: a2 /\ ~ In INDX (map fst a2) /\ pfi_revolutions data (pfi_be32s ix) revs.
Proof.
  intros dec file d' Hb H. unfold pfi_load_image, pfi_read_chunk in H.
  destruct (read_chunk_max PFI_MAXIMUM_CHUNK_SIZE file) as [[[id data] r]| |] eqn:Er; cbn [obind] in H; try discriminate.
  destruct (read_chunk_max_inv PFI_MAXIMUM_CHUNK_SIZE _ _ _ _ ltac:(reflexivity) Hb Er) as (Ef & L4 & Lm & Hb2).
  pose proof (pfi_type_inv id) as T. destruct (pfi_type id) eqn:Et; try discriminate. subst id. destruct (Nat.ltb_spec (length data) 4) as [|L]; [discriminate|].
  assert (Hl : length r <= length file) by (rewrite Ef, app_length; lia).
  pose proof (chunks_inv dec (length file) (mkPF di_default 0 [] [] [] []) PFI_ data r Hl Hb2) as I. rewrite Et in I.
  destruct (pfi_chunks _ _ _ _ _ _) as [s| |]; cbn [obind] in H; try discriminate. injection H as <-.
  destruct I as (body & ed & cs & rest & E1 & E2 & E3 & E4 & E5).
  destruct body as [|c body]; [exfalso; cbn [app] in E1; injection E1 as E1 _; revert E1; clear; discriminate|].
  cbn [app] in E1. assert (c = (PFI_, data)) by congruence. assert (cs = body ++ [(END_, ed)]) by congruence. subst c cs.
  assert (Hb3 : Forall (fun c => bytes_ok (snd c) = true) body).
  { apply Forall_forall. intros c Ic. rewrite E2 in Hb2. rewrite bytes_ok_app in Hb2. apply andb_prop in Hb2 as [Hb2 _].
    apply in_split in Ic as (x & y & ->). unfold chunks_bytes in Hb2. rewrite <- app_assoc, flat_map_app, bytes_ok_app in Hb2. apply andb_prop in Hb2 as [_ Hb2]. cbn [app flat_map] in Hb2.
    rewrite bytes_ok_app in Hb2. apply andb_prop in Hb2 as [Hb2 _]. unfold write_chunk in Hb2. rewrite !bytes_ok_app in Hb2. apply andb_prop in Hb2 as [Hb2 _]. apply andb_prop in Hb2 as [_ Hb2]. apply andb_prop in Hb2 as [_ Hb2]. exact Hb2. }
  destruct (good_fold dec _ [] _ _ good_start E5) as [G D]. cbn [app] in G, D.
  exists data, body, ed, rest. split; [|split; [exact L|split; [|split]]].
  - rewrite Ef, E2. unfold chunks_bytes. cbn [flat_map fst snd]. rewrite <- app_assoc. reflexivity.
  - apply Forall_forall. intros c Hc. apply Forall_app in E3 as [E3 _]. rewrite Forall_forall in E3. destruct (E3 c Hc) as [W1 W2].
    split; [exact W1|]. split; [exact W2|]. pose proof (Forall_inv_tail E4) as E4'. rewrite Forall_forall in E4'. exact (E4' c Hc).
  - destruct (gd_img _ _ G) as (sm & [_ [S0 S1]] & _ & Ln & _). apply (f_equal (@length _)) in S0, S1. rewrite !map_length in S0, S1.
    change (length (di_map0 (pf_img s)) + length (di_map1 (pf_img s)) = datas body). rewrite S0, S1, Ln. reflexivity.
  - intros a dt b Q. destruct (D ((PFI_, data) :: a) dt b ltac:(rewrite Q; reflexivity)) as (index & revs & B1 & B2).
    assert (Hd : bytes_ok dt = true) by (rewrite Forall_forall in Hb3; apply (Hb3 (DATA, dt)); rewrite Q; apply in_or_app; right; left; reflexivity).
    pose proof (data_inv _ _ _ Hd B2) as R. destruct B1 as [[-> _]|(a1 & ix & b1 & Q1 & Q2 & ->)]; [destruct R as [R _]; congruence|].
    destruct a1 as [|x a1]; [exfalso; cbn [app] in Q1; injection Q1 as Q1 _; revert Q1; clear; discriminate|]. cbn [app] in Q1. injection Q1 as _ Q1.
    exists a1, ix, b1, revs. auto.
Qed.
(* The only panics: decoding a track, more than 2^32 clocks in the data of a track, more than 65535 tracks. *)
Theorem C65_panics : forall dec file, bytes_ok file = true -> pfi_load_image dec di_default file = Panic ->
  (exists past clock ch rs, dec past clock ch rs = Panic) \/
  (exists pre read post times, file = pre ++ read ++ post /\ coded read times /\ (2 ^ 32 <= total times)%N) \/
  (12 * 65536 <= N.of_nat (length file))%N.
Proof.
  intros dec file Hb H. unfold pfi_load_image, pfi_read_chunk in H.
  destruct (read_chunk_max PFI_MAXIMUM_CHUNK_SIZE file) as [[[id data] r]| |] eqn:Er; cbn [obind] in H; [|discriminate|exfalso; exact (read_max_no_panic _ _ Er)].
  destruct (read_chunk_max_inv PFI_MAXIMUM_CHUNK_SIZE _ _ _ _ ltac:(reflexivity) Hb Er) as (Ef & L4 & Lm & Hb2).
  pose proof (pfi_type_inv id) as T. destruct (pfi_type id) eqn:Et; try discriminate. subst id. destruct (Nat.ltb_spec (length data) 4) as [|L]; [discriminate|].
  assert (Hl : length r <= length file) by (rewrite Ef, app_length; lia).
  pose proof (chunks_inv dec (length file) (mkPF di_default 0 [] [] [] []) PFI_ data r Hl Hb2) as I. rewrite Et in I.
  destruct (pfi_chunks _ _ _ _ _ _) as [s| |]; cbn [obind] in H; try discriminate. clear H. destruct I as (cs & rest & E2 & E3 & E5).
  assert (Split : forall l st, ofold (stepc dec) l st = Panic -> exists a c b s1, l = a ++ c :: b /\ ofold (stepc dec) a st = Ok s1 /\ stepc dec s1 c = Panic).
  { induction l as [|c l IH]; intros st E; [discriminate|]. cbn [ofold] in E. destruct (stepc dec st c) as [s1| |] eqn:Es; cbn [obind] in E; [|discriminate|].
    - destruct (IH s1 E) as (a & c1 & b & s2 & -> & A & B). exists (c :: a), c1, b, s2. split; [reflexivity|]. split; [cbn [ofold]; rewrite Es; exact A|exact B].
    - exists [], c, l, st. split; [reflexivity|]. split; [reflexivity|exact Es]. }
  destruct (Split _ _ E5) as (a & [cid cd] & b & s1 & Q & Ea & Ec). destruct (good_fold dec _ [] _ _ good_start Ea) as [G _]. cbn [app] in G.
  assert (Ef2 : file = chunks_bytes (a ++ (cid, cd) :: b) ++ rest).
  { transitivity (chunks_bytes ((PFI_, data) :: cs) ++ rest); [|exact (f_equal (fun l => chunks_bytes l ++ rest) Q)]. rewrite Ef, E2. unfold chunks_bytes. cbn [flat_map fst snd]. rewrite <- app_assoc. reflexivity. }
  assert (Ew : Forall (fun c => length (fst c) = 4) (a ++ (cid, cd) :: b)).
  { refine (eq_ind _ (fun l => Forall (fun c : Chunk => length (fst c) = 4) l) _ _ Q). constructor; [reflexivity|]. eapply Forall_impl; [|exact E3]. intros x [X _]. exact X. }
  unfold stepc in Ec. cbn [fst snd] in Ec. destruct (pfi_type cid); try discriminate; cbn [pfi_step] in Ec.
  - destruct (pfi_be32s (firstn 12 cd)) as [|? [|? [|? [|]]]]; discriminate.
  - assert (Hd : exists x y, file = x ++ cd ++ y).
    { rewrite Ef2. unfold chunks_bytes. rewrite flat_map_app. cbn [flat_map fst snd]. unfold write_chunk. exists (flat_map (fun c => write_chunk (fst c) (snd c)) a ++ cid ++ be32 (as_u32 (N.of_nat (length cd)))). eexists.
      rewrite <- !app_assoc. reflexivity. }
    destruct (pfi_track_data cd (pf_index s1)) as [revs| |] eqn:Ed; [|discriminate|].
    + cbn [obind] in Ec. destruct (gd_img _ _ G) as (sm & W & _ & _ & C). pose proof (next_any a s1 sm (as_u8 (N.of_nat (length (pf_heads s1)))) W C) as Nx.
      destruct (pfi_next_ch _ _) as [ch| |]; [|contradiction|].
      * cbn [obind] in Ec. destruct (flux_add _ _ _ _) as [d1| |] eqn:Eg; try discriminate. apply flux_add_panic in Eg. left. eauto.
      * right. right. pose proof (chunks_len _ Ew) as Lc. rewrite Ef2, app_length. rewrite app_length in Lc. cbn [length] in Lc.
        assert (Lf : datas a <= length a) by (unfold datas; clear; induction a as [|x a IH]; [reflexivity|]; cbn [filter]; destruct (id_eqb _ _); cbn [length]; lia). lia.
    + destruct Hd as (x & y & ->). rewrite !bytes_ok_app in Hb. apply andb_prop in Hb as [_ Hb]. apply andb_prop in Hb as [Hb _].
      destruct (data_panic _ _ Hb Ed) as (read & tail & times & -> & Hc & Ht). right. left. exists x, read, (tail ++ y), times. rewrite <- app_assoc. auto.
Qed.

(* ---- an example: two tracks; the first with a transition before the first index pulse and a partial last revolution ---- *)
Definition ex_t0 : TrackDesc := mkPT [] 0 0 1000000 [] [] [10; 300; 5000]%N [([0x54; 0x45; 0x58; 0x54]%N, [0x41]%N)] [20; 5; 4; 30; 1; 1; 0; 40]%N.
Definition ex_t1 : TrackDesc := mkPT [] 0 1 1000000 [] [] [0; 100]%N [] [60; 50; 70; 0; 0]%N.
Lemma ex_revs0 : pfi_revolutions (pt_data ex_t0) (pt_index ex_t0) [([260; 30]%N, 290%N); ([256; 40]%N, 296%N)].
Proof. apply C65_data; reflexivity. Qed.
Lemma ex_revs1 : pfi_revolutions (pt_data ex_t1) (pt_index ex_t1) [([60; 50]%N, 110%N)].
Proof. apply C65_data; reflexivity. Qed.
Example C65_example : exists d' s', pfi_load_image (fun _ _ _ _ => Ok []) di_default (pfi_file [0; 0; 0; 0]%N [ex_t0; ex_t1] [] [] []) = Ok d' /\ maps_valid d' /\ shows d' s' /\
  di_geom d' = mkCh 1 2 /\ laid 2 2 (fun i => flux_track (ch_at 2 i) []) s'.
Proof.
  refine (C65_load (fun _ _ _ _ => Ok []) [0; 0; 0; 0]%N [ex_t0; ex_t1] [] [] [] 2 [[([260; 30]%N, 290%N); ([256; 40]%N, 296%N)]; [([60; 50]%N, 110%N)]] (fun _ => []) _ _ _ _ _ _ _ _ _).
  - cbn; lia.
  - unfold small. cbn. lia.
  - split; constructor.
  - unfold small. cbn. lia.
  - assert (A : aside_ok []) by (split; constructor).
    constructor; [|constructor; [|constructor]]; constructor; try (split; [|split]); unfold u32s, small; cbn [ex_t0 ex_t1 pt_aside pt_aside2 pt_aside3 pt_cyl pt_head pt_clock pt_index pt_more pt_data]; try exact A; repeat constructor; try discriminate; cbn; try lia; discriminate.
  - right. reflexivity.
  - cbn. lia.
  - reflexivity.
  - intros [|[|i]] t revs Et Er; [| |destruct i; discriminate]; injection Et as <-; injection Er as <-; (split; [reflexivity|]; split; [|reflexivity]); [exact ex_revs0|exact ex_revs1].
Qed.

(* ---- findings ---- *)
(* The position recorded with a track is not used: the only track of this file is recorded for cylinder 1 but loaded as cylinder 0. *)
Definition lone : TrackDesc := mkPT [] 1 0 1000000 [] [] [0; 9]%N [] [9; 9]%N.
Theorem C65_recorded_position_refuted : ~ (forall dec header ts d', Forall valid_track ts -> pfi_load_image dec di_default (pfi_file header ts [] [] []) = Ok d' ->
  forall t, In t ts -> exists tr, di_track d' (mkCh (pt_cyl t) (pt_head t)) = Ok (Some tr)).
Proof.
  intros H. remember (pfi_load_image (fun _ _ _ _ => Ok []) di_default (pfi_file [0; 0; 0; 0]%N [lone] [] [] [])) as o eqn:E. pose proof E as E2. vm_compute in E2. rewrite E2 in E. clear o E2.
  assert (V : Forall valid_track [lone]).
  { assert (A : aside_ok []) by (split; constructor).
    constructor; [|constructor]; constructor; try (split; [|split]); unfold u32s, small; cbn [lone pt_aside pt_aside2 pt_aside3 pt_cyl pt_head pt_clock pt_index pt_more pt_data]; try exact A; repeat constructor; try discriminate; cbn; try lia; discriminate. }
  destruct (H _ _ _ _ V (eq_sym E) lone (or_introl eq_refl)) as (tr & T). vm_compute in T. discriminate.
Qed.

Print Assumptions C65_data.
Print Assumptions C65_load.
Print Assumptions C65_only.
Print Assumptions C65_panics.
Print Assumptions C65_recorded_position_refuted.
