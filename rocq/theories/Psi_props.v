(* Psi_props.v - C50: loading PSI (PCE sector image) files. *)
From Verif Require Import Base Base_lemmas Chs_model Types_model MetaSector_model MetaSector_spec BitStream_model
  DiskImage_model DiskImage_spec DiskImage_proofs Format_model Raw_model Raw4_proofs TreeMap_proofs
  Pce_model Pce_proofs Psi_model Psi_spec Psi_proofs Psi2_proofs.
From Verif Require Imd2_proofs.
From Coq Require Import Lia.
Import ListNotations.

Lemma default_wf : wf di_default ([], []). Proof. apply empty_wf; reflexivity. Qed.
Lemma default_meta : meta_only di_default. Proof. split; [reflexivity|left; reflexivity]. Qed.

Lemma format_in a b : psi_format_ok a b = true -> In (a, b) [(0, 0); (1, 0); (2, 0); (2, 1); (2, 2); (3, 0)]%N.
Proof.
  unfold psi_format_ok. intros Eo.
  destruct a as [|[[p|p|]|[p|p|]|]]; try discriminate; destruct b as [|[p2|[p2|p2|]|]]; try discriminate; cbn [In]; auto 8.
Qed.
Lemma read_chunk_no_panic l : read_chunk l <> Panic.
Proof.
  unfold read_chunk. destruct (read_exact 4 l) as [[i r0]| |] eqn:E0; cbn [obind]; try discriminate; [|exfalso; exact (Verif.Imd2_proofs.read_exact_no_panic _ _ E0)].
  destruct (read_be32 r0) as [[size r1]| |] eqn:E1; cbn [obind]; try discriminate.
  2: { unfold read_be32 in E1. destruct r0 as [|? [|? [|? [|? ?]]]]; discriminate. }
  destruct (MAXIMUM_CHUNK_SIZE <? size)%N; [discriminate|].
  destruct (read_exact (N.to_nat size + 8) l) as [[buf r2]| |] eqn:E2; cbn [obind]; try discriminate; [|exfalso; exact (Verif.Imd2_proofs.read_exact_no_panic _ _ E2)].
  destruct (read_be32 r2) as [[c r3]| |] eqn:E3; cbn [obind]; try discriminate; [destruct (_ =? _)%N; discriminate|].
  unfold read_be32 in E3. destruct r2 as [|? [|? [|? [|? ?]]]]; discriminate.
Qed.
(* A file made of tracks whose sectors are together is loaded as exactly these tracks: per head in the order of the file, every
   sector with its ID (that of the IBM header if there is one), its data and its flags. *)
Theorem C50_load : forall header ts last end_data rest,
  valid_header header -> ts <> [] -> Forall valid_track ts -> tracks_together ts -> aside_ok last ->
  (N.of_nat (length end_data) <= 0x100000)%N ->
  exists d', psi_load_image di_default (psi_file header ts last end_data rest) = Ok d' /\
    maps_valid d' /\ shows d' (heads_of ts) /\
    di_geom d' = mkCh (as_u16 (N.of_nat (length ts)) / head_count ts) (head_count ts).
Proof.
  intros header ts last ed rest (Hh & v1 & v2 & a & b & more & Eh & Hf) Hne HF Hnd Hl Hed.
  unfold psi_load_image, psi_file.
  set (cs := flat_map track_chunks ts ++ last).
  replace ((PSI_, header) :: flat_map track_chunks ts ++ last ++ [(END_, ed)]) with ((PSI_, header) :: cs ++ [(END_, ed)]) by (unfold cs; rewrite <- app_assoc; reflexivity).
  assert (Hr : Forall readable cs).
  { unfold cs. apply Forall_app. split; [|apply aside_readable; exact Hl]. clear - HF. induction ts as [|t ts IH]; [constructor|]. inversion HF as [|? ? Hv HF']; subst.
    cbn [flat_map]. apply Forall_app. split; [|auto]. unfold track_chunks. pose proof (vt_sectors _ Hv) as HS. induction (td_sectors t) as [|x l IHl]; [constructor|].
    inversion HS; subst. cbn [flat_map]. apply Forall_app. split; [apply sector_readable; assumption|auto]. }
  remember (chunks_bytes ((PSI_, header) :: cs ++ [(END_, ed)]) ++ rest) as file eqn:Efile.
  assert (Hlen : length cs < length file).
  { rewrite Efile. rewrite app_length. unfold chunks_bytes. cbn [flat_map fst snd]. rewrite app_length, write_chunk_length by reflexivity.
    fold (chunks_bytes (cs ++ [(END_, ed)])). pose proof (chunks_len (cs ++ [(END_, ed)])) as L. rewrite app_length in L. cbn [length] in L.
    assert (length cs + 1 <= length (chunks_bytes (cs ++ [(END_, ed)]))); [|lia]. apply L. apply Forall_app. split; [|constructor; [reflexivity|constructor]].
    eapply Forall_impl; [|exact Hr]. intros c (Hc & _). exact Hc. }
  assert (Er : psi_read_chunk file = Ok (PsiFileHeader, header, chunks_bytes (cs ++ [(END_, ed)]) ++ rest)).
  { rewrite Efile. unfold chunks_bytes. cbn [flat_map fst snd]. rewrite <- app_assoc. exact (psi_read_write PSI_ header _ eq_refl Hh). }
  rewrite Er. cbn [obind]. cbv iota.
  assert (Em : forall (X : N -> N -> outcome DiskImage), match header with | _ :: _ :: a :: b :: _ => X a b | _ => Err FormatParseError end = X a b) by (intros; rewrite Eh; reflexivity).
  rewrite Em. rewrite (psi_format_in _ _ Hf). cbn [negb].
  pose proof (psi_loop_chunks ed rest Hed cs (mkPS di_default ctx_default [] [] None) (PSI_, header) (length file) Hr ltac:(discriminate) Hlen) as E.
  cbn [fst snd] in E. change (psi_type PSI_) with PsiFileHeader in E. rewrite E. clear E.
  cbn [ofold]. unfold stepc at 1. cbn [fst snd]. change (psi_type PSI_) with PsiFileHeader. cbn [psi_step obind].
  destruct (tracks_fold ts [] di_default _ [] None HF Hnd default_wf default_meta) as (d & cur & E & W & M).
  unfold cs. rewrite ofold_app. cbn [map app] in E. rewrite E. cbn [obind]. rewrite aside_fold by exact (proj1 Hl). cbn [obind ps_heads ps_tracks ps_img].
  rewrite (seen_all_count ts [] HF) by auto. cbn [existsb orb].
  change (bit_of (existsb (fun t => (td_head t =? 0)%N) ts) + bit_of (existsb (fun t => (td_head t =? 1)%N) ts))%N with (head_count ts).
  assert (Hc : (0 < head_count ts < 3)%N).
  { unfold head_count. destruct ts as [|t ts]; [congruence|]. inversion HF as [|? ? Hv _]; subst. pose proof (vt_head _ Hv) as Hh2.
    assert (E0 : td_head t = 0%N \/ td_head t = 1%N) by lia. cbn [existsb].
    generalize (existsb (fun u => (td_head u =? 0)%N) ts), (existsb (fun u => (td_head u =? 1)%N) ts). intros e0 e1.
    destruct E0 as [-> | ->]; [change (0 =? 0)%N with true; change (0 =? 1)%N with false|change (1 =? 0)%N with false; change (1 =? 1)%N with true];
      destruct e0, e1; cbn [orb]; lia. }
  assert (Hs : as_u8 (head_count ts) = head_count ts) by (apply N.mod_small; lia). rewrite Hs.
  destruct (N.eqb_spec (head_count ts) 0) as [Z|_]; [lia|].
  eexists. split; [reflexivity|]. rewrite add_all_heads in W by exact HF. cbn [fst snd app] in W.
  split; [exact (proj1 W)|]. split; [exact (wf_shows _ _ (wf_ext d (with_geom d _) _ eq_refl eq_refl eq_refl W))|].
  cbn [with_geom di_geom]. rewrite map_length. reflexivity.
Qed.
(* Only chunk files are loaded: a header, chunks with correct sizes and CRCs, among them a sector header, and an END chunk. *)
Theorem C50_only_chunk_files : forall file d', bytes_ok file = true -> psi_load_image di_default file = Ok d' ->
  exists header cs end_data rest, file = chunks_bytes ((PSI_, header) :: cs ++ [(END_, end_data)]) ++ rest /\
    valid_header header /\ Forall (fun c => length (fst c) = 4 /\ small c /\ fst c <> END_) cs /\ exists data, In (SECT, data) cs.
Proof.
  intros file d' Hb H. unfold psi_load_image, psi_read_chunk in H.
  destruct (read_chunk file) as [[[id data] r]| |] eqn:Er; cbn [obind] in H; try discriminate.
  destruct (read_chunk_inv _ _ _ _ Hb Er) as (Ef & L4 & Lm & Hb2).
  pose proof (psi_type_inv id) as T. destruct (psi_type id) eqn:Et; try discriminate. subst id.
  destruct data as [|v1 [|v2 [|a [|b more]]]]; try discriminate.
  destruct (psi_format_ok a b) eqn:Eo; [|discriminate]. cbn [negb] in H.
  assert (Hl : length r <= length file) by (rewrite Ef, app_length; lia).
  pose proof (loop_inv (length file) [] _ PSI_ (v1 :: v2 :: a :: b :: more) r Hl Hb2 start_inv) as I.
  rewrite Et in I.
  destruct (psi_loop (length file) (mkPS di_default ctx_default [] [] None) PsiFileHeader (v1 :: v2 :: a :: b :: more) r) as [s| |]; cbn [obind] in H; try discriminate.
  destruct I as (body & ed & cs & rest & E1 & E2 & E3 & E4 & E5). cbn [app] in E5.
  destruct body as [|c body]; [exfalso; cbn [app] in E1; injection E1 as E1 _; revert E1; clear; discriminate|].
  cbn [app] in E1. assert (c = (PSI_, v1 :: v2 :: a :: b :: more)) by congruence. assert (cs = body ++ [(END_, ed)]) by congruence. subst c cs.
  exists (v1 :: v2 :: a :: b :: more), body, ed, rest. split; [|split; [|split]].
  - rewrite Ef, E2. unfold chunks_bytes. cbn [flat_map fst snd]. rewrite <- app_assoc. reflexivity.
  - split; [exact Lm|]. exists v1, v2, a, b, more. split; [reflexivity|exact (format_in _ _ Eo)].
  - apply Forall_forall. intros c Hc. apply Forall_app in E3 as [E3 _]. rewrite Forall_forall in E3. destruct (E3 c Hc) as [W1 W2].
    split; [exact W1|]. split; [exact W2|]. inversion E4 as [|? ? _ E4']; subst. rewrite Forall_forall in E4'. exact (E4' c Hc).
  - destruct E5 as [_ [[B _]|[_ [x Hx]]] _ _ _].
    + rewrite B in H. discriminate.
    + destruct Hx as [Hx|Hx]; [exfalso; revert Hx; clear; discriminate|]. exists x. exact Hx.
Qed.
(* The loader panics only on a file that has no sector header before its END chunk, has an OFFS chunk of fewer than four bytes, or
   has a sector header with the flag of an alternate copy. *)
Theorem C50_panics_only : forall file, bytes_ok file = true -> psi_load_image di_default file = Panic ->
  exists header cs rest, file = chunks_bytes ((PSI_, header) :: cs) ++ rest /\ valid_header header /\
    ((exists body end_data, cs = body ++ [(END_, end_data)] /\ forall data, ~ In (SECT, data) body) \/
     (exists data, In (OFFS, data) cs /\ length data < 4) \/
     (exists data, In (SECT, data) cs /\ N.testbit (nth 6 data 0%N) 1 = true)).
Proof.
  intros file Hb H. unfold psi_load_image, psi_read_chunk in H.
  destruct (read_chunk file) as [[[id data] r]| |] eqn:Er; cbn [obind] in H; try discriminate.
  2: { exfalso. exact (read_chunk_no_panic _ Er). }
  destruct (read_chunk_inv _ _ _ _ Hb Er) as (Ef & L4 & Lm & Hb2).
  pose proof (psi_type_inv id) as T. destruct (psi_type id) eqn:Et; try discriminate. subst id.
  destruct data as [|v1 [|v2 [|a [|b more]]]]; try discriminate.
  destruct (psi_format_ok a b) eqn:Eo; [|discriminate]. cbn [negb] in H.
  assert (Hvh : valid_header (v1 :: v2 :: a :: b :: more)) by (split; [exact Lm|exists v1, v2, a, b, more; split; [reflexivity|exact (format_in _ _ Eo)]]).
  assert (Hl : length r <= length file) by (rewrite Ef, app_length; lia).
  pose proof (loop_inv (length file) [] _ PSI_ (v1 :: v2 :: a :: b :: more) r Hl Hb2 start_inv) as I.
  rewrite Et in I. remember (v1 :: v2 :: a :: b :: more) as header eqn:Eh. clear Eh.
  destruct (psi_loop (length file) (mkPS di_default ctx_default [] [] None) PsiFileHeader header r) as [s| |]; cbn [obind] in H; try discriminate.
  - destruct I as (body & ed & cs & rest & E1 & E2 & E3 & E4 & E5). cbn [app] in E5.
    destruct body as [|c body]; [exfalso; cbn [app] in E1; injection E1 as E1 _; revert E1; clear; discriminate|].
    cbn [app] in E1. assert (c = (PSI_, header)) by congruence. assert (cs = body ++ [(END_, ed)]) by congruence. subst c cs.
    exists header, (body ++ [(END_, ed)]), rest. split; [|split; [exact Hvh|]].
    + rewrite Ef, E2. unfold chunks_bytes. cbn [flat_map fst snd]. rewrite <- app_assoc. reflexivity.
    + left. exists body, ed. split; [reflexivity|]. destruct E5 as [_ [[_ B]|[B _]] _ D _].
      * intros x Hx. apply (B x). right. exact Hx.
      * exfalso. clear - H B D. destruct D as [D|[D|[D|[D|D]]]]; rewrite D in *; [contradiction|discriminate..].
  - destruct I as (cs & rest & E2 & E3 & E4 & E5). exists header, cs, rest. split; [|split; [exact Hvh|right]].
    + rewrite Ef, E2. unfold chunks_bytes. cbn [flat_map fst snd]. rewrite <- app_assoc. reflexivity.
    + cbn [app] in E5. destruct E5 as [(x & [Hx|Hx] & Lx)|(x & [Hx|Hx] & Lx)]; try (exfalso; revert Hx; clear; discriminate); [left|right]; exists x; auto.
Qed.
(* Findings: what files can be made of according to the format, and what the loader does with them. *)
Definition hdr : list N := [0; 0; 2; 2]%N.
Definition one_sector (c h s : N) (b : N) : list Chunk := [(SECT, be16 c ++ [h; s] ++ be16 2 ++ [0; 0]%N); (DATA, [b; b])].
Definition meta_ids (d : DiskImage) (c h : N) : option (list (DiskChsn * list N)) :=
  match di_track d (mkCh c h) with Ok (Some (TMeta m)) => Some (map (fun x => (ms_id x, ms_data x)) (mt_sectors m)) | _ => None end.
(* the second sector of cylinder 0 comes after a sector of cylinder 1: it is added to cylinder 1 *)
Theorem C50_returning_to_a_track_refuted : exists d',
  psi_load_image di_default (chunks_bytes ((PSI_, hdr) :: one_sector 0 0 1 5 ++ one_sector 1 0 1 6 ++ one_sector 0 0 2 7 ++ [(END_, [])])) = Ok d' /\
  meta_ids d' 0 0 = Some [(mkChsn (mkChs 0 0 1) 0, [5; 5])]%N /\
  meta_ids d' 1 0 = Some [(mkChsn (mkChs 1 0 1) 0, [6; 6]); (mkChsn (mkChs 0 0 2) 0, [7; 7])]%N.
Proof. eexists. split; [vm_compute; reflexivity|]. split; vm_compute; reflexivity. Qed.
(* an alternate copy of a sector *)
Theorem C50_alternate_copy_refuted :
  psi_load_image di_default (chunks_bytes ((PSI_, hdr) :: one_sector 0 0 1 5 ++ [(SECT, be16 0 ++ [0; 1] ++ be16 2 ++ [2; 0])%N; (DATA, [5; 6]%N); (END_, [])])) = Panic.
Proof. vm_compute. reflexivity. Qed.
(* a file without sectors; an OFFS chunk that is too short *)
Theorem C50_no_sectors_refuted : psi_load_image di_default (chunks_bytes [(PSI_, hdr); (END_, [])]) = Panic.
Proof. vm_compute. reflexivity. Qed.
Theorem C50_short_offset_refuted : psi_load_image di_default (chunks_bytes [(PSI_, hdr); (OFFS, [1; 2; 3]%N)]) = Panic.
Proof. vm_compute. reflexivity. Qed.
(* the IBM header of a compressed sector is taken for that of the sector after it *)
Theorem C50_compressed_ibm_refuted : exists d',
  psi_load_image di_default (chunks_bytes ((PSI_, hdr) ::
    [(SECT, be16 0 ++ [0; 1] ++ be16 2 ++ [1; 9])%N; (IBMM, [7; 1; 5; 2; 0; 0]%N)] ++ one_sector 0 0 2 8 ++ [(END_, [])])) = Ok d' /\
  meta_ids d' 0 0 = Some [(mkChsn (mkChs 0 0 1) 0, [9; 9]); (mkChsn (mkChs 7 1 5) 2, [8; 8])]%N.
Proof. eexists. split; vm_compute; reflexivity. Qed.

Example C50_ex :
  let t := mkTD 0x123 1 [mkSD [([0x54; 0x45; 0x58; 0x54], [0x68; 0x69])] 1 512 5 (Fill 0xF6);
                         mkSD [] 2 256 4 (Stored [(OFFS, [0; 0; 1; 2])] (Some (mkIbm 7 1 2 1 9 0, [])) 0 [1; 2; 3])]%N in
  valid_header hdr /\ Forall valid_track [t] /\ tracks_together [t] /\ aside_ok [].
Proof.
  cbv zeta. split; [split; [cbn; lia|exists 0%N, 0%N, 2%N, 2%N, []; split; [reflexivity|cbn; auto 8]]|]. split; [|split; [repeat constructor; intros []|split; constructor]].
  assert (A0 : aside_ok []) by (split; constructor).
  constructor; [|constructor]. constructor; cbn [td_cyl td_head td_sectors]; try lia; [discriminate|].
  constructor; [|constructor; [|constructor]]; unfold valid_sector; cbn [sd_aside sd_size sd_flags sd_body].
  - split; [split; (constructor; [|constructor])|].
    + unfold aside. cbn [fst snd]. repeat (split; [reflexivity || discriminate|]). discriminate.
    + unfold small. cbn. lia.
    + split; [lia|]. split; reflexivity.
  - split; [exact A0|]. split; [lia|]. split; [reflexivity|]. split; [reflexivity|]. split.
    + split; (constructor; [|constructor]); [|unfold small; cbn; lia]. unfold aside. cbn [fst snd]. repeat (split; [reflexivity || discriminate|]). cbn. lia.
    + split; [cbn; lia|exact A0].
Qed.

Print Assumptions C50_load.
Print Assumptions C50_only_chunk_files.
Print Assumptions C50_panics_only.
Print Assumptions C50_returning_to_a_track_refuted.
Print Assumptions C50_alternate_copy_refuted.
Print Assumptions C50_no_sectors_refuted.
Print Assumptions C50_short_offset_refuted.
Print Assumptions C50_compressed_ibm_refuted.
