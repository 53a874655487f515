(* SectorView_props.v - C22 reading and C23 writing a disk through a sector view.
   The PC formats only: the view addresses sectors from 1, an Amiga disk counts from 0. *)
From Coq Require Import List.
From Verif Require Import Base Base_lemmas Chs_model Types_model DiskImage_model Format_model Format_spec Format_proofs SectorView_model SectorView_spec SectorView_proofs SectorView2_proofs.
Import ListNotations.
Local Open Scope N_scope.

(* ================================================================ C22 ================ *)
(* On any disk whose sectors are all readable, every history of reads and seeks returns what a flat file of the
   concatenated sectors returns, except after a read beyond the end (see careful). *)
Theorem C22_reads : forall f d flat rnd rnds ops, is_pc f -> holds d f flat -> bytes_ok flat = true ->
  Forall read_only ops -> careful f flat 0 false None ops ->
  exists v v', v_new rnd d f = Ok v /\ v_calls rnds 0 v ops = Some (v', snd (flat_calls flat 0 ops)).
Proof.
  intros f d flat rnd rnds ops Hf Hd Hb Hro Hc.
  assert (HPW : forall d' fl, holds d' f fl -> holds d' f fl /\ (False -> forall c h s data, in_layout f c h s -> length data = 512%nat -> bytes_ok data = true ->
     exists d'', di_write_sector_basic d' (mkCh c h) (sector_query c h s) None data = (d'', Ok tt) /\ holds d'' f (splice fl (N.to_nat (sector_no f c h s * 512)) data)))
    by (intros d' fl H; split; [exact H|intros []]).
  destruct (new_ok f (fun d fl => holds d f fl) Hf False HPW rnd d flat Hd Hb) as (v & Ev & H0).
  destruct (history f (fun d fl => holds d f fl) Hf False HPW rnds ops 0 v flat 0 false None H0 Hc) as (v' & fl' & p' & e' & d' & rs & R1 & R2 & _ & _).
  { intros [X|[b X]]; [congruence|]. rewrite Forall_forall in Hro. exact (Hro _ X). }
  exists v, v'. split; [exact Ev|]. rewrite R1, R2. reflexivity.
Qed.
(* In particular every history in which no read asks for more than remains. *)
Theorem C22_within : forall f d flat rnd rnds ops, is_pc f -> holds d f flat -> bytes_ok flat = true -> within flat 0 ops ->
  exists v v', v_new rnd d f = Ok v /\ v_calls rnds 0 v ops = Some (v', snd (flat_calls flat 0 ops)).
Proof.
  intros f d flat rnd rnds ops Hf Hd Hb Hw. assert (H : Forall read_only ops /\ careful f flat 0 false None ops).
  { revert Hw. generalize 0 as p. induction ops as [|op ops IH]; intros p Hw; cbn [within careful] in *; [split; constructor|].
    destruct op as [n|s|b|]; cbn [within careful] in *; [| |destruct Hw|].
    - destruct Hw as [Hn Hw]. destruct (IH _ Hw) as [A B]. split; [constructor; [exact I|exact A]|]. split; [discriminate|].
      unfold flat_read. cbn [fst]. rewrite slice_length by lia. cbn [orb]. destruct (N.ltb_spec (N.of_nat (length flat)) (p + N.of_nat n)); [lia|exact B].
    - destruct (IH _ Hw) as [A B]. split; [constructor; [exact I|exact A]|]. split; [split; [discriminate|discriminate]|exact B].
    - destruct (IH _ Hw) as [A B]. split; [constructor; [exact I|exact A]|exact B]. }
  destruct H. apply C22_reads; auto.
Qed.
(* what a reader gets: k bytes from offset o *)
Theorem C22_read_at : forall f d flat rnd rnds o k, is_pc f -> holds d f flat -> bytes_ok flat = true -> o < N.of_nat (length flat) ->
  exists v v', v_new rnd d f = Ok v /\ v_calls rnds 0 v [VSeek (FromStart o); VRead k] = Some (v', [RPos o; RBytes (slice flat (N.to_nat o) k)]).
Proof.
  intros f d flat rnd rnds o k Hf Hd Hb Ho.
  destruct (C22_reads f d flat rnd rnds [VSeek (FromStart o); VRead k] Hf Hd Hb) as (v & v' & E & R).
  { repeat constructor. }
  { cbn [careful]. split; [split; discriminate|]. split; [discriminate|exact I]. }
  exists v, v'. split; [exact E|]. rewrite R. cbn [flat_calls]. unfold flat_seek, target. rewrite N2Z.id. rewrite (proj2 (N.ltb_lt _ _) Ho). reflexivity.
Qed.
Example C22_ex : forall flat, N.of_nat (length flat) = sf_disk_size PcFloppy160 -> exists o,
  let ops := [VRead 700; VSeek (FromCurrent (-1000)); VRead 1; VSeek (FromStart (o - 1)); VRead 2; VSeek (FromEnd (-512)); VRead 512; VSeek (FromEnd 0)] in
  o = 163840 /\ Forall read_only ops /\ careful PcFloppy160 flat 0 false None ops.
Proof.
  intros flat H. exists (sf_disk_size PcFloppy160). cbv zeta. split; [reflexivity|]. split; [repeat constructor|].
  assert (L : sf_disk_size PcFloppy160 = 163840) by reflexivity. rewrite L in *.
  apply careful_read; [lia|]. apply (careful_seek _ _ _ 0); [cbn [target]; lia|lia|discriminate|].
  apply careful_read; [lia|]. apply (careful_seek _ _ _ 163839); [cbn [target]; lia|lia|discriminate|].
  apply careful_read_over; [lia|lia|]. apply (careful_seek _ _ _ (163840 - 512)); [cbn [target]; lia|lia|intros _; split; [discriminate|vm_compute; discriminate]|].
  apply careful_read; [lia|]. cbn [careful]. split; [split; discriminate|exact I].
Qed.
(* After a read beyond the end, a seek into sector 1 of the last track finds nothing to read, and a relative seek starts
   from the end of that sector instead of the end of the disk. *)
Theorem C22_after_end_refuted : forall f d flat rnd n, is_pc f -> holds d f flat -> bytes_ok flat = true -> (length flat < n)%nat -> exists v v1,
  v_new rnd d f = Ok v /\ v_call rnd v (VRead n) = Some (v1, RBytes flat) /\
  (forall o, o < 512 -> exists v2, v_call rnd v1 (VSeek (FromStart (last_track f * 512 + o))) = Some (v2, RPos (last_track f * 512 + o)) /\
     forall m, v_call rnd v2 (VRead m) = Some (v2, RBytes [])) /\
  (exists v2, v_call rnd v1 (VSeek (FromCurrent 0)) = Some (v2, RPos (last_track f * 512 + 512)) /\ last_track f * 512 + 512 < N.of_nat (length flat)).
Proof.
  intros f d flat rnd n Hf Hd Hb Hn. destruct (after_end f Hf rnd d flat n Hd Hb Hn) as (v & v1 & A & B & C & v2 & D). exists v, v1.
  split; [exact A|]. split; [exact B|]. split; [exact C|]. exists v2. split; [exact D|].
  destruct Hd as [El _]. destruct (pc_layout f Hf) as (_ & _ & _ & Ed & _). destruct (ls_facts f Hf) as (L8 & _ & Ll & _). lia.
Qed.

(* ================================================================ C23 ================ *)
(* On a disk where sector writes store the sector, and nothing else, every careful history of reads, seeks, writes and
   flushes returns what the flat file returns; when the last write is followed by a flush, the disk holds exactly the
   flat file with all writes made. *)
Theorem C23_history : forall f P d flat rnd rnds ops, is_pc f -> sector_store f P -> P d flat -> bytes_ok flat = true ->
  careful f flat 0 false None ops ->
  exists v v' flat' p' rs, v_new rnd d f = Ok v /\ flat_calls flat 0 ops = (flat', p', rs) /\ v_calls rnds 0 v ops = Some (v', rs) /\
    (clean_end false ops -> P (v_disk v') flat' /\ holds (v_disk v') f flat').
Proof.
  intros f P d flat rnd rnds ops Hf HP Hd Hb Hc.
  assert (HPW : forall d' fl, P d' fl -> holds d' f fl /\ (True -> forall c h s data, in_layout f c h s -> length data = 512%nat -> bytes_ok data = true ->
     exists d'', di_write_sector_basic d' (mkCh c h) (sector_query c h s) None data = (d'', Ok tt) /\ P d'' (splice fl (N.to_nat (sector_no f c h s * 512)) data)))
    by (intros d' fl H; destruct (HP d' fl H); auto).
  destruct (new_ok f P Hf True HPW rnd d flat Hd Hb) as (v & Ev & H0).
  destruct (history f P Hf True HPW rnds ops 0 v flat 0 false None H0 Hc (fun _ => I)) as (v' & fl' & p' & e' & d' & rs & R1 & R2 & R3 & R4).
  exists v, v', fl', p', rs. split; [exact Ev|]. split; [exact R2|]. split; [exact R1|]. intros Hcl.
  rewrite (R4 false Hcl) in R3 by congruence. pose proof (final_disk f P _ _ _ _ R3) as HPf. split; [exact HPf|]. apply HP, HPf.
Qed.
(* Every disk formatted by fluxfox is such a disk. *)
Theorem C23_formatted : forall f d boot creator rnd0 rnd rnds ops, is_pc f -> (di_res d = [] \/ di_res d = [RBitStream]) ->
  (512 <= length (boot_of boot))%nat -> bytes_ok (boot_of boot) = true -> accepts_creator (boot_of boot) creator ->
  exists d0 B, di_format rnd0 d f RBitStream Fat12 boot creator = (d0, Ok tt) /\ boot_for (boot_of boot) f creator B /\
    (careful f (fresh_flat f B) 0 false None ops ->
     exists v v' flat' p' rs, v_new rnd d0 f = Ok v /\ flat_calls (fresh_flat f B) 0 ops = (flat', p', rs) /\ v_calls rnds 0 v ops = Some (v', rs) /\
       (clean_end false ops -> holds (v_disk v') f flat')).
Proof.
  intros f d boot creator rnd0 rnd rnds ops Hf Hr Hl Hb Hc. destruct (formatted_store rnd0 d f boot creator Hf Hr Hl Hb Hc) as (d0 & B & E & HB & Hbb & HS).
  exists d0, B. split; [exact E|]. split; [exact HB|]. intros Hca.
  assert (Hfb : bytes_ok (fresh_flat f B) = true).
  { unfold fresh_flat. rewrite bytes_ok_app, Hbb. cbn [andb]. unfold bytes_ok. apply forallb_forall. intros x Hx. apply repeat_spec in Hx. subst x. reflexivity. }
  destruct (C23_history f (fmt_store f) d0 _ rnd rnds ops Hf (fmt_is_store f) HS Hfb Hca) as (v & v' & fl' & p' & rs & R1 & R2 & R3 & R4).
  exists v, v', fl', p', rs. split; [exact R1|]. split; [exact R2|]. split; [exact R3|]. intros X. apply R4, X.
Qed.
Example C23_ex : forall B, length B = 512%nat ->
  let ops := [VSeek (FromStart 510); VWrite [1; 2]; VSeek (FromStart 0); VWrite [7]; VFlush; VSeek (FromStart (200 * 512)); VWrite [8; 9]; VRead 3; VFlush] in
  careful PcFloppy160 (fresh_flat PcFloppy160 B) 0 false None ops /\ clean_end false ops.
Proof.
  intros B HB ops. split; [|reflexivity]. unfold ops. set (flat := fresh_flat PcFloppy160 B).
  assert (L : N.of_nat (length flat) = 163840).
  { unfold flat, fresh_flat. rewrite app_length, repeat_length, HB. change (sf_disk_size PcFloppy160) with 163840. lia. }
  clearbody flat. assert (SL : forall (l : list N) i s, (i + length s <= length l)%nat -> length (splice l i s) = length l) by apply splice_length.
  apply (careful_seek _ _ _ 510); [reflexivity|lia|discriminate|].
  apply careful_write; [reflexivity|discriminate|vm_compute; discriminate|cbn [length]; lia|].
  change (510 + N.of_nat (length [1; 2])) with 512. change (510 / 512) with 0. change (N.to_nat 510) with 510%nat.
  set (f1 := splice flat 510 [1; 2]). assert (L1 : N.of_nat (length f1) = 163840) by (unfold f1; rewrite SL; cbn [length]; lia).
  cbn [careful]. unfold allowed_seek, flat_seek, dirty_after. cbn [target fst].
  change (Z.to_N (Z.of_N 0)) with 0. rewrite L1. change (0 <? 163840) with true. cbn [fst negb andb]. change (0 / 512 =? 0) with true. cbn [negb].
  split; [split; [discriminate|intros k E; injection E as <-; reflexivity]|].
  split; [repeat split; try discriminate; try reflexivity; intros k E; injection E as <-; reflexivity|].
  set (f2 := splice f1 (N.to_nat 0) [7]). assert (L2 : N.of_nat (length f2) = 163840) by (unfold f2; rewrite SL; cbn [length]; lia). rewrite L2.
  change (Z.to_N (Z.of_N (200 * 512))) with 102400. change (102400 <? 163840) with true. cbn [fst negb andb].
  split; [split; discriminate|].
  split; [repeat split; try discriminate; try reflexivity; cbn [length]; lia|].
  split; [intros k E; injection E as <-; vm_compute; discriminate|exact I].
Qed.
(* A write that reaches into the next sector stores the first sector's bytes in that next sector; the first sector keeps
   its old contents, although the write and the flush report success. *)
Theorem C23_boundary_refuted : forall f P d flat rnd a x, is_pc f -> sector_store f P -> P d flat -> bytes_ok flat = true ->
  length a = 512%nat -> bytes_ok a = true -> x < 256 -> exists v v',
  v_new rnd d f = Ok v /\ v_calls (fun _ => rnd) 0 v [VWrite (a ++ [x]); VFlush] = Some (v', [RWritten 513; RDone]) /\
  holds (v_disk v') f (splice flat 512 (splice a 0 [x])).
Proof.
  intros f P d flat rnd a x Hf HP Hd Hb Ha Hba Hx. destruct (boundary_loses f P Hf HP rnd d flat a x Hd Hb Ha Hba Hx) as (v & v' & A & B & C).
  exists v, v'. split; [exact A|]. split; [exact B|]. apply HP, C.
Qed.
(* A write followed by a seek to another track stores the sector on that other track. *)
Theorem C23_seek_track_refuted : forall f P d flat rnd x, is_pc f -> sector_store f P -> P d flat -> bytes_ok flat = true -> x < 256 -> exists v v',
  v_new rnd d f = Ok v /\
  v_calls (fun _ => rnd) 0 v [VWrite [x]; VSeek (FromStart (l_s (sf_layout f) * 512)); VFlush] =
    Some (v', [RWritten 1; RPos (l_s (sf_layout f) * 512); RDone]) /\
  holds (v_disk v') f (splice flat (N.to_nat (l_s (sf_layout f) * 512)) (splice (sector_at flat 0) 0 [x])).
Proof.
  intros f P d flat rnd x Hf HP Hd Hb Hx. destruct (seek_track_loses f P Hf HP rnd d flat x Hd Hb Hx) as (v & v' & A & B & C).
  exists v, v'. split; [exact A|]. split; [exact B|]. apply HP, C.
Qed.

Print Assumptions C22_reads.
Print Assumptions C22_within.
Print Assumptions C22_read_at.
Print Assumptions C22_after_end_refuted.
Print Assumptions C23_history.
Print Assumptions C23_formatted.
Print Assumptions C23_boundary_refuted.
Print Assumptions C23_seek_track_refuted.
