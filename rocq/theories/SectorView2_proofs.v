(* SectorView2_proofs.v - formatted disks are sector stores; what the view does where it is not a flat file. *)
From Coq Require Import List.
From Verif Require Import Base Base_lemmas Chs_model Types_model BitStream_model DiskImage_model DiskImage_spec DiskImage_proofs Format_model Format_spec Format_proofs Format2_proofs Format3_proofs
  SectorView_model SectorView_spec SectorView_proofs.
Import ListNotations.
Local Open Scope N_scope.

Definition fmt_store (f : StandardFormat) (d : DiskImage) (flat : list N) : Prop :=
  is_pc f /\ N.of_nat (length flat) = sf_disk_size f /\ exists F, wf d (tab F (lc f) (lh f)) /\
    forall h c, h < lh f -> c < lc f -> holds_track f (mkCh c h) (fun s => sector_at flat (sector_no f c h s)) (F h c).
Lemma data_ext : forall f ch a b t, (forall s, 1 <= s <= l_s (sf_layout f) -> a s = b s) -> fmt_track f ch a t -> fmt_track f ch b t.
Proof.
  intros f ch a b t H (std & ss & B & G & H1 & H2 & H3 & H4). exists std, ss, B. split; [exact G|]. split; [exact H1|]. split; [exact H2|]. split; [exact H3|].
  intros k s Hk. rewrite (H4 _ _ Hk). apply H.
  assert (Hlen : length ss = N.to_nat (l_s (sf_layout f))) by (apply (f_equal (@length _)) in H3; rewrite map_length, format_ids_length in H3; exact H3).
  assert (k < length ss)%nat by (apply nth_error_Some; congruence). lia.
Qed.
Lemma fmt_is_store : forall f, sector_store f (fmt_store f).
Proof.
  intros f d flat (Hf & Hlen & F & Hwf & HF). destruct (pc_layout f Hf) as (_ & _ & _ & D & _). pose proof Hlen as Hlen'. rewrite D in Hlen'.
  split.
  - split; [exact Hlen|]. intros c h s Hin rnd.
    destruct (fmt_disk_reads f d F (fun c h s => sector_at flat (sector_no f c h s)) Hwf HF) as [H _]. exact (H c h s Hin rnd).
  - intros c h s data Hin Hl Hb. pose proof Hin as (Hc & Hh & Hs). destruct (HF h c Hh Hc) as (b & Eb & Ht).
    pose proof (sector_no_lt f c h s Hf Hin) as Hkt.
    assert (Hn : nth_error (side (tab F (lc f) (lh f)) h) (N.to_nat c) = Some (F h c)).
    { rewrite side_tab by apply lh_12. unfold lc, lh in *. rewrite (proj2 (N.ltb_lt _ _) Hc), (proj2 (N.ltb_lt _ _) Hh). reflexivity. }
    destruct (wf_seek d _ (mkCh c h) (F h c) Hwf ltac:(cbn; pose proof (lh_12 f); unfold lh in *; lia) Hn) as (ti & Es).
    destruct (fmt_write f (mkCh c h) _ b Ht s data Hs Hl Hb) as (t' & w & Ew & (W1 & W2 & W3) & Ht').
    exists (with_pool d (upd (di_pool d) ti (TBit t'))). split.
    + unfold di_write_sector_basic, di_write_sector. rewrite Es. cbn [obind]. rewrite Eb. cbn [tk_write_sector]. cbn [ch_c ch_h] in Ew.
      rewrite Ew. cbn [obind omap]. rewrite W1, W2, W3. reflexivity.
    + split; [exact Hf|]. split; [rewrite splice_length by lia; exact Hlen|].
      pose proof (replace_wf d _ (mkCh c h) ti _ (TBit t') Hwf Es) as W. rewrite replace_tab in W by (auto; apply lh_12).
      eexists. split; [exact W|]. intros h' c' Hh' Hc'. cbv beta.
      destruct (N.eqb_spec h' h) as [->|Hnh]; cbn [andb].
      * destruct (N.eqb_spec c' c) as [->|Hnc].
        -- exists t'. split; [reflexivity|]. apply (data_ext f (mkCh c h) (fun x => if x =? s then data else sector_at flat (sector_no f c h x))); [|exact Ht'].
           intros x Hx. cbv beta. destruct (N.eqb_spec x s) as [->|Hne].
           ++ symmetry. apply (sector_at_splice_same flat _ (total f)); auto.
           ++ symmetry. apply (sector_at_splice_other flat _ _ (total f)); auto. intros E.
              destruct (sector_no_inj f c h x c h s Hf) as (_ & _ & X); auto. split; [exact Hc|split; [exact Hh|exact Hx]].
        -- destruct (HF h c' Hh' Hc') as (y & Ey & Hy). exists y. split; [exact Ey|]. eapply data_ext; [|exact Hy].
           intros x Hx. cbv beta. symmetry. apply (sector_at_splice_other flat _ _ (total f)); auto. intros E.
           destruct (sector_no_inj f c' h x c h s Hf) as (X & _ & _); auto. split; [exact Hc'|split; [exact Hh|exact Hx]].
      * destruct (HF h' c' Hh' Hc') as (y & Ey & Hy). exists y. split; [exact Ey|]. eapply data_ext; [|exact Hy].
        intros x Hx. cbv beta. symmetry. apply (sector_at_splice_other flat _ _ (total f)); auto. intros E.
        destruct (sector_no_inj f c' h' x c h s Hf) as (_ & X & _); auto. split; [exact Hc'|split; [exact Hh'|exact Hx]].
Qed.
(* a formatted disk *)
Lemma fresh_sector : forall f B c h s, is_pc f -> length B = 512%nat -> in_layout f c h s ->
  sector_at (fresh_flat f B) (sector_no f c h s) = fresh_content B c h s.
Proof.
  intros f B c h s Hf HB Hin. unfold fresh_content, fresh_flat, sector_at, slice, zeros.
  pose proof (sector_no_lt f c h s Hf Hin) as Hkt. destruct (pc_layout f Hf) as (_ & _ & _ & D & _ & Hpos & _). rewrite D.
  destruct ((c =? 0) && (h =? 0) && (s =? 1)) eqn:E.
  - apply andb_prop in E as [E E3]. apply andb_prop in E as [E1 E2]. apply N.eqb_eq in E1, E2, E3. subst c h s.
    assert (Z : sector_no f 0 0 1 = 0) by (unfold sector_no; lia). rewrite Z. change (N.to_nat (0 * 512)) with 0%nat. cbn [skipn].
    rewrite firstn_app, HB, Nat.sub_diag, firstn_O, app_nil_r. rewrite <- HB at 1. apply firstn_all.
  - assert (Hne : sector_no f c h s <> 0).
    { intros Z. assert (Q : sector_no f c h s = sector_no f 0 0 1) by (rewrite Z; unfold sector_no; lia).
      destruct (sector_no_inj f c h s 0 0 1 Hf Hin) as (-> & -> & ->); [|exact Q|discriminate].
      destruct Hf as [A B0]; destruct f; try congruence; vm_compute; repeat split; discriminate. }
    set (k := sector_no f c h s) in *. rewrite skipn_app, skipn_all2 by lia. cbn [app]. rewrite HB.
    assert (SR : forall n m, skipn n (repeat 0 m) = repeat 0 (m - n)).
    { induction n as [|n IH]; intros [|m]; try reflexivity. cbn [repeat skipn]. rewrite IH. reflexivity. }
    assert (FR : forall n m, (n <= m)%nat -> firstn n (repeat 0 m) = repeat 0 n).
    { induction n as [|n IH]; intros [|m] H; try reflexivity; [lia|]. cbn [repeat firstn]. rewrite IH by lia. reflexivity. }
    rewrite SR, FR by lia. reflexivity.
Qed.
Theorem formatted_store : forall rnd d f boot creator, is_pc f -> (di_res d = [] \/ di_res d = [RBitStream]) ->
  (512 <= length (boot_of boot))%nat -> bytes_ok (boot_of boot) = true -> accepts_creator (boot_of boot) creator ->
  exists d' B, di_format rnd d f RBitStream Fat12 boot creator = (d', Ok tt) /\ boot_for (boot_of boot) f creator B /\ bytes_ok B = true /\
    fmt_store f d' (fresh_flat f B).
Proof.
  intros rnd d f boot creator Hpc Hr Hl Hb Hc. destruct (boot_result_ok boot f creator Hpc Hl Hb Hc) as (b & Eb & Hf & Hbb).
  destruct (format_main rnd d f boot creator b Hpc Hr Eb (proj1 Hf) Hbb) as (d' & E & _ & _ & _ & _ & F & Hwf & HF).
  exists d', (bs_buf b). split; [exact E|]. split; [exact Hf|]. split; [exact Hbb|]. split; [exact Hpc|]. split.
  - unfold fresh_flat. rewrite app_length, repeat_length, (proj1 Hf). destruct (pc_layout f Hpc) as (_ & _ & _ & D & _ & Hpos & _). lia.
  - exists F. split; [exact Hwf|]. intros h c Hh Hcc. destruct (HF h c Hh Hcc) as (x & Ex & Hx). exists x. split; [exact Ex|].
    eapply data_ext; [|exact Hx]. intros s Hs. cbv beta. symmetry. apply fresh_sector; auto; [apply Hf|]. split; [exact Hcc|split; [exact Hh|exact Hs]].
Qed.

(* ---- where the view is not a flat file ---- *)
Lemma ls_facts : forall f, is_pc f -> 8 <= l_s (sf_layout f) /\ l_s (sf_layout f) < total f /\ last_track f + l_s (sf_layout f) = total f /\
  in_layout f 0 0 1 /\ in_layout f 0 0 2 /\ 1 < l_s (sf_layout f).
Proof. intros f [A B]. destruct f; try congruence; vm_compute; repeat split; try reflexivity; discriminate. Qed.
Lemma second_track : forall f, is_pc f -> exists c h, in_layout f c h 1 /\ sector_no f c h 1 = l_s (sf_layout f).
Proof.
  intros f [A B]. destruct f; try congruence; try (exists 0, 1; vm_compute; repeat split; try reflexivity; discriminate);
    exists 1, 0; vm_compute; repeat split; try reflexivity; discriminate.
Qed.
Section Not_flat.
Variable f : StandardFormat.
Variable P : DiskImage -> list N -> Prop.
Hypothesis Hf : is_pc f.
Hypothesis HP : sector_store f P.
Let HPW : forall d flat, P d flat -> holds d f flat /\ (True ->
    forall c h s data, in_layout f c h s -> length data = 512%nat -> bytes_ok data = true ->
      exists d', di_write_sector_basic d (mkCh c h) (sector_query c h s) None data = (d', Ok tt) /\
        P d' (splice flat (N.to_nat (sector_no f c h s * 512)) data)).
Proof. intros d flat H. destruct (HP d flat H) as [A B]. auto. Qed.

Definition view (d : DiskImage) (c h s : N) (buf : list N) (dirty : bool) (b : N) : View := mkView d f (mkCh c h) s buf dirty b false.
Lemma new_view : forall rnd d flat, P d flat -> v_new rnd d f = Ok (view d 0 0 1 (sector_at flat 0) false 0).
Proof.
  intros rnd d flat Hp. destruct (ls_facts f Hf) as (_ & _ & _ & I1 & _). unfold v_new.
  rewrite (read_sector_ok f P Hf True HPW rnd d flat (mkView d f (mkCh 0 0) 1 (repeat 0 (N.to_nat (sf_sector_size f))) false 0 false) 0 0 1 Hp eq_refl eq_refl eq_refl I1).
  assert (Z : sector_no f 0 0 1 = 0) by (unfold sector_no; lia). rewrite Z. reflexivity.
Qed.
Lemma put_splice : forall (l : list N) i b, (i < length l)%nat -> upd l i b = splice l i [b].
Proof.
  intros l i b H. apply list_eq_nth_error. intros j. rewrite nth_error_splice by (cbn [length]; lia). cbn [length].
  destruct (Nat.eq_dec j i) as [->|Hne].
  - rewrite nth_error_upd_same by lia. rewrite Nat.leb_refl. destruct (Nat.ltb_spec i (i + 1)); [|lia]. cbn [andb]. rewrite Nat.sub_diag. reflexivity.
  - rewrite nth_error_upd_other by auto. destruct (Nat.leb_spec i j); [|reflexivity]. destruct (Nat.ltb_spec j (i + 1)); [lia|reflexivity].
Qed.
Lemma write_fits : forall rnd bs d c h s buf dirty b, b + N.of_nat (length bs) <= N.of_nat (length buf) ->
  v_write rnd bs (view d c h s buf dirty b) =
    (view d c h s (splice buf (N.to_nat b) bs) (dirty || negb (length bs =? 0)%nat) (b + N.of_nat (length bs)), Ok (N.of_nat (length bs))).
Proof.
  intros rnd. induction bs as [|x bs IH]; intros d c h s buf dirty b H; cbn [v_write length] in *.
  - rewrite orb_false_r. replace (b + N.of_nat 0) with b by lia.
    replace (splice buf (N.to_nat b) []) with buf; [reflexivity|]. symmetry.
    replace (@nil N) with (slice buf (N.to_nat b) 0) by reflexivity. apply splice_own. lia.
  - change (v_eod (view d c h s buf dirty b)) with false. cbn iota.
    assert (Ef : v_fill rnd (view d c h s buf dirty b) = (view d c h s buf dirty b, Ok tt)).
    { unfold v_fill. cbn [view v_byte v_buf]. destruct (N.ltb_spec b (N.of_nat (length buf))); [reflexivity|lia]. }
    rewrite Ef. change (v_eod (view d c h s buf dirty b)) with false. cbn iota.
    change (v_put (view d c h s buf dirty b) x) with (view d c h s (upd buf (N.to_nat b) x) true (b + 1)).
    rewrite IH by (rewrite upd_length; lia).
    cbn [omap obind orb]. rewrite put_splice by lia. rewrite splice_cons by lia.
    f_equal; [|f_equal; lia]. cbn [Nat.eqb negb]. rewrite orb_true_r. f_equal. lia.
Qed.
Lemma write_app : forall rnd a b v v1 n, v_write rnd a v = (v1, Ok n) -> n = N.of_nat (length a) -> v_write rnd (a ++ b) v = let (v2, r) := v_write rnd b v1 in (v2, omap (fun m => m + n) r).
Proof.
  intros rnd. induction a as [|x a IH]; intros b v v1 n H Hn; cbn [v_write app length] in *.
  - injection H as <- <-. destruct (v_write rnd b v) as [v2 [m|e|]]; cbn; try reflexivity. do 2 f_equal. lia.
  - destruct (v_eod v); [injection H as _ <-; lia|]. destruct (v_fill rnd v) as [w [[]|e|]]; try discriminate.
    destruct (v_eod w); [injection H as _ <-; lia|]. destruct (v_write rnd a (v_put w x)) as [w2 r] eqn:Er.
    destruct r as [m|e|]; cbn [omap obind] in H; try discriminate. injection H as <- <-.
    rewrite (IH b _ _ _ Er ltac:(lia)). destruct (v_write rnd b w2) as [w3 [m'|e|]]; cbn [omap obind]; try reflexivity. do 2 f_equal. lia.
Qed.
Lemma commit_view : forall d flat c h s buf b, P d flat -> in_layout f c h s -> length buf = 512%nat -> bytes_ok buf = true ->
  exists d', v_commit (view d c h s buf true b) = (view d' c h s buf false b, Ok tt) /\ P d' (splice flat (N.to_nat (sector_no f c h s * 512)) buf).
Proof.
  intros d flat c h s buf b Hp Hin Hl Hb. exact (commit_ok f P Hf True HPW d flat (view d c h s buf true b) c h s I Hp eq_refl eq_refl eq_refl eq_refl Hin eq_refl Hl Hb).
Qed.
Lemma read_view : forall rnd d flat c h s buf dirty b s0, P d flat -> in_layout f c h s ->
  v_read_sector rnd (view d c h s0 buf dirty b) s = (view d c h s (sector_at flat (sector_no f c h s)) false 0, Ok tt).
Proof.
  intros rnd d flat c h s buf dirty b s0 Hp Hin. exact (read_sector_ok f P Hf True HPW rnd d flat (view d c h s0 buf dirty b) c h s Hp eq_refl eq_refl eq_refl Hin).
Qed.

(* writing one byte and seeking to the next track: the sector is stored on the track seeked to *)
Theorem seek_track_loses : forall rnd d flat x, P d flat -> bytes_ok flat = true -> x < 256 -> exists v v',
  v_new rnd d f = Ok v /\
  v_calls (fun _ => rnd) 0 v [VWrite [x]; VSeek (FromStart (l_s (sf_layout f) * 512)); VFlush] =
    Some (v', [RWritten 1; RPos (l_s (sf_layout f) * 512); RDone]) /\
  P (v_disk v') (splice flat (N.to_nat (l_s (sf_layout f) * 512)) (splice (sector_at flat 0) 0 [x])).
Proof.
  intros rnd d flat x Hp Hb Hx. destruct (ls_facts f Hf) as (L8 & Lt & _ & I1 & I2 & _). pose proof (len_flat f P Hf True HPW d flat Hp) as El.
  assert (Bx : bytes_ok [x] = true) by (unfold bytes_ok, is_byte; cbn; rewrite (proj2 (N.ltb_lt _ _) Hx); reflexivity).
  destruct (second_track f Hf) as (c & h & I3 & E3). destruct (pc_layout f Hf) as (_ & _ & _ & D & _).
  assert (L0 : length (sector_at flat 0) = 512%nat) by (apply (sector_at_length flat 0 (total f) El); lia).
  set (buf := splice (sector_at flat 0) 0 [x]).
  assert (Lb : length buf = 512%nat) by (unfold buf; rewrite splice_length; cbn [length]; lia).
  assert (Bb : bytes_ok buf = true) by (unfold buf; apply splice_bytes_ok; [apply sector_at_bytes, Hb|exact Bx]).
  destruct (commit_view d flat c h 1 buf 1 Hp I3 Lb Bb) as (d1 & Ec & Hp1). rewrite E3 in Hp1.
  destruct (seek_spec f (l_s (sf_layout f) * 512) Hf ltac:(rewrite D; lia)) as (c' & h' & s' & I' & En & Es).
  rewrite N.div_mul in En by discriminate. rewrite N.mod_mul in Es by discriminate.
  destruct (sector_no_inj f c' h' s' c h 1 Hf I' I3 ltac:(congruence)) as (-> & -> & ->).
  assert (Hch : (0 =? c) && (0 =? h) && (1 =? 1) = false).
  { destruct (N.eqb_spec 0 c) as [<-|]; [|reflexivity]. destruct (N.eqb_spec 0 h) as [<-|]; [|reflexivity]. unfold sector_no in E3. exfalso. lia. }
  exists (view d 0 0 1 (sector_at flat 0) false 0), (view d1 c h 1 (sector_at (splice flat (N.to_nat (l_s (sf_layout f) * 512)) buf) (sector_no f c h 1)) false 0).
  split; [apply (new_view rnd d flat Hp)|]. split; [|exact Hp1].
  pose proof (write_fits rnd [x] d 0 0 1 (sector_at flat 0) false 0 ltac:(rewrite L0; cbn; lia)) as Ew.
  change (N.of_nat (length [x])) with 1 in Ew. change (0 + 1) with 1 in Ew. change (N.to_nat 0) with 0%nat in Ew. change (false || negb (length [x] =? 0)%nat) with true in Ew. fold buf in Ew.
  assert (Ek : v_seek_to rnd (view d 0 0 1 buf true 1) (l_s (sf_layout f) * 512) =
    (view d1 c h 1 (sector_at (splice flat (N.to_nat (l_s (sf_layout f) * 512)) buf) (sector_no f c h 1)) false 0, Ok (l_s (sf_layout f) * 512))).
  { unfold v_seek_to, v_layout. change (v_fmt (view d 0 0 1 buf true 1)) with f. rewrite Es. cbn [chs_c chs_h chs_s].
    change (ch_c (v_ch (view d 0 0 1 buf true 1))) with 0. change (ch_h (v_ch (view d 0 0 1 buf true 1))) with 0. change (v_sid (view d 0 0 1 buf true 1)) with 1.
    rewrite Hch. change (v_with_cursor (view d 0 0 1 buf true 1) (mkCh c h) 1) with (view d c h 1 buf true 1). rewrite Ec.
    rewrite (read_view rnd d1 _ c h 1 buf false 1 1 Hp1 I3). reflexivity. }
  cbn [v_calls v_call]. rewrite Ew. cbn [v_calls v_call]. unfold v_seek. cbn iota. rewrite Ek. reflexivity.
Qed.

(* writing across a sector boundary: the first sector keeps its old bytes *)
Theorem boundary_loses : forall rnd d flat a x, P d flat -> bytes_ok flat = true -> length a = 512%nat -> bytes_ok a = true -> x < 256 -> exists v v',
  v_new rnd d f = Ok v /\
  v_calls (fun _ => rnd) 0 v [VWrite (a ++ [x]); VFlush] = Some (v', [RWritten 513; RDone]) /\
  P (v_disk v') (splice flat 512 (splice a 0 [x])).
Proof.
  intros rnd d flat a x Hp Hb Ha Hba Hx. destruct (ls_facts f Hf) as (L8 & Lt & _ & I1 & I2 & _). pose proof (len_flat f P Hf True HPW d flat Hp) as El.
  assert (Bx : bytes_ok [x] = true) by (unfold bytes_ok, is_byte; cbn; rewrite (proj2 (N.ltb_lt _ _) Hx); reflexivity).
  assert (L0 : length (sector_at flat 0) = 512%nat) by (apply (sector_at_length flat 0 (total f) El); lia).
  assert (Z1 : sector_no f 0 0 2 = 1) by (unfold sector_no; lia).
  destruct (commit_view d flat 0 0 2 a 512 Hp I2 Ha Hba) as (d1 & Ec & Hp1). rewrite Z1 in Hp1. change (N.to_nat (1 * 512)) with 512%nat in Hp1.
  assert (Hs1 : sector_at (splice flat 512 a) 1 = a) by (apply (sector_at_splice_same flat 1 (total f)); auto; lia).
  assert (Lx : length (splice a 0 [x]) = 512%nat) by (rewrite splice_length; cbn [length]; lia).
  destruct (commit_view d1 _ 0 0 2 (splice a 0 [x]) 1 Hp1 I2 Lx (splice_bytes_ok _ _ _ Hba Bx)) as (d2 & Ec2 & Hp2). rewrite Z1 in Hp2. change (N.to_nat (1 * 512)) with 512%nat in Hp2.
  rewrite splice_twice in Hp2 by lia.
  exists (view d 0 0 1 (sector_at flat 0) false 0), (view d2 0 0 2 (splice a 0 [x]) false 1). split; [apply (new_view rnd d flat Hp)|]. split; [|exact Hp2].
  cbn [v_calls v_call].
  pose proof (write_fits rnd a d 0 0 1 (sector_at flat 0) false 0 ltac:(lia)) as Ew.
  rewrite Ha in Ew. change (N.to_nat 0) with 0%nat in Ew.
  assert (Hsp : splice (sector_at flat 0) 0 a = a).
  { unfold splice. cbn [firstn app]. rewrite skipn_all2 by lia. apply app_nil_r. }
  rewrite Hsp in Ew. rewrite (write_app rnd a [x] _ _ _ Ew) by (rewrite Ha; reflexivity).
  change (0 + N.of_nat 512) with 512. cbn [Nat.eqb negb orb].
  assert (Ew2 : v_write rnd [x] (view d 0 0 1 a true 512) = (view d1 0 0 2 (splice a 0 [x]) true 1, Ok 1)).
  { cbn [v_write]. change (v_eod (view d 0 0 1 a true 512)) with false. cbn iota.
    assert (En : v_fill rnd (view d 0 0 1 a true 512) = (view d1 0 0 2 a false 0, Ok tt)).
    { unfold v_fill. change (v_buf (view d 0 0 1 a true 512)) with a. rewrite Ha. change (v_byte (view d 0 0 1 a true 512) <? N.of_nat 512) with false. cbn iota.
      unfold v_next_sector, v_layout. change (v_fmt (view d 0 0 1 a true 512)) with f. change (v_sid (view d 0 0 1 a true 512)) with 1.
      destruct (N.ltb_spec (l_s (sf_layout f)) (1 + 1)); [lia|].
      change (v_with_cursor (view d 0 0 1 a true 512) (v_ch (view d 0 0 1 a true 512)) (1 + 1)) with (view d 0 0 2 a true 512). rewrite Ec.
      change (v_eod (view d1 0 0 2 a false 512)) with false. change (v_sid (view d1 0 0 2 a false 512)) with 2. cbn iota.
      rewrite (read_view rnd d1 _ 0 0 2 a false 512 2 Hp1 I2). rewrite Z1, Hs1. reflexivity. }
    rewrite En. change (v_eod (view d1 0 0 2 a false 0)) with false. cbn iota.
    change (v_put (view d1 0 0 2 a false 0) x) with (view d1 0 0 2 (upd a 0 x) true 1). rewrite put_splice by lia. reflexivity. }
  rewrite Ew2. cbn [omap obind]. unfold v_flush. rewrite Ec2. reflexivity.
Qed.
End Not_flat.

(* after the end of the disk *)
Section After_end.
Variable f : StandardFormat.
Hypothesis Hf : is_pc f.
Let P := fun d flat => holds d f flat.
Let HPW : forall d flat, P d flat -> holds d f flat /\ (False ->
    forall c h s data, in_layout f c h s -> length data = 512%nat -> bytes_ok data = true ->
      exists d', di_write_sector_basic d (mkCh c h) (sector_query c h s) None data = (d', Ok tt) /\
        P d' (splice flat (N.to_nat (sector_no f c h s * 512)) data)).
Proof. intros d flat H. split; [exact H|]. intros []. Qed.
Theorem after_end : forall rnd d flat n, holds d f flat -> bytes_ok flat = true -> (length flat < n)%nat -> exists v v1,
  v_new rnd d f = Ok v /\ v_call rnd v (VRead n) = Some (v1, RBytes flat) /\
  (forall o, o < 512 -> exists v2, v_call rnd v1 (VSeek (FromStart (last_track f * 512 + o))) = Some (v2, RPos (last_track f * 512 + o)) /\
     forall m, v_call rnd v2 (VRead m) = Some (v2, RBytes [])) /\
  (exists v2, v_call rnd v1 (VSeek (FromCurrent 0)) = Some (v2, RPos (last_track f * 512 + 512))).
Proof.
  intros rnd d flat n Hd Hb Hn. destruct (new_ok f P Hf False HPW rnd d flat Hd Hb) as (v & Ev & H0).
  pose proof (ap_len _ _ _ _ _ _ H0) as El. destruct (ls_facts f Hf) as (L8 & Lt & Ll & _).
  destruct (read_clean f P Hf False HPW rnd n v flat 0 H0) as (v1 & E1 & H1).
  destruct (N.ltb_spec (N.of_nat (length flat)) (0 + N.of_nat n)); [|lia]. exists v, v1. split; [exact Ev|].
  assert (Hs : slice flat (N.to_nat 0) n = flat) by (unfold slice; cbn [skipn]; apply firstn_all2; change (N.to_nat 0) with 0%nat; cbn [skipn]; lia).
  split; [cbn [v_call]; rewrite E1, Hs; reflexivity|].
  pose proof H1 as [Efmt Eeod Eb _ HPd Hdir Hbyte (c & h & Hch & Hsid & Hin & Hk)].
  destruct (pc_layout f Hf) as (_ & _ & _ & D & _). split.
  - intros o Ho. destruct (seek_spec f (last_track f * 512 + o) Hf ltac:(rewrite D; lia)) as (c' & h' & s' & I' & En & Es).
    assert (Q : (last_track f * 512 + o) / 512 = last_track f) by (symmetry; apply (N.div_unique _ _ _ o); lia).
    destruct (sector_no_inj f c' h' s' c h 1 Hf I' Hin ltac:(congruence)) as (-> & -> & ->).
    exists (v_with_byte v1 ((last_track f * 512 + o) mod 512)). split.
    + cbn [v_call]. unfold v_seek, v_seek_to, v_layout. rewrite Efmt, Es. cbn [chs_c chs_h chs_s]. rewrite Hch, Hsid. cbn [ch_c ch_h]. rewrite !N.eqb_refl. reflexivity.
    + intros m. cbn [v_call]. destruct m as [|m]; cbn [v_read]; [reflexivity|]. cbn [v_with_byte v_eod]. rewrite Eeod. reflexivity.
  - assert (Ho : v_offset v1 = last_track f * 512 + 512).
    { unfold v_offset, v_chs, v_layout. rewrite Efmt, Hch, Hsid. cbn [ch_c ch_h]. rewrite offset_of by auto. rewrite Hk, Hbyte. reflexivity. }
    destruct (seek_end_ok f P Hf False HPW rnd v1 flat (last_track f * 512 + 512) H1) as (v2 & E2 & _); [lia| |].
    + replace (last_track f * 512 + 512) with ((last_track f + 1) * 512) by lia. rewrite N.div_mul by discriminate. lia.
    + exists v2. cbn [v_call]. unfold v_seek. rewrite Ho. unfold add_signed. replace (Z.to_N (Z.of_N (last_track f * 512 + 512) + 0)) with (last_track f * 512 + 512) by lia.
      rewrite E2. reflexivity.
Qed.
End After_end.

(* steps of careful, for examples *)
Lemma careful_read : forall f flat p n t, p + N.of_nat n <= N.of_nat (length flat) -> careful f flat (p + N.of_nat n) false None t ->
  careful f flat p false None (VRead n :: t).
Proof.
  intros f flat p n t H Hc. cbn [careful]. split; [discriminate|]. unfold flat_read. cbn [fst orb]. rewrite slice_length by lia.
  destruct (N.ltb_spec (N.of_nat (length flat)) (p + N.of_nat n)); [lia|exact Hc].
Qed.
Lemma careful_read_over : forall f flat p n t, p <= N.of_nat (length flat) -> N.of_nat (length flat) < p + N.of_nat n -> careful f flat (N.of_nat (length flat)) true None t ->
  careful f flat p false None (VRead n :: t).
Proof.
  intros f flat p n t Hp H Hc. cbn [careful]. split; [discriminate|]. unfold flat_read. cbn [fst orb]. unfold slice. rewrite firstn_length, skipn_length.
  destruct (N.ltb_spec (N.of_nat (length flat)) (p + N.of_nat n)); [|lia].
  replace (p + N.of_nat (Nat.min n (length flat - N.to_nat p))) with (N.of_nat (length flat)) by lia. exact Hc.
Qed.
Lemma careful_seek : forall f flat p q ended s t, Z.to_N (target flat p s) = q -> q < N.of_nat (length flat) ->
  (ended = true -> (forall z, s <> FromCurrent z) /\ q / 512 <> last_track f) -> careful f flat q false None t ->
  careful f flat p ended None (VSeek s :: t).
Proof.
  intros f flat p q ended s t E Hq He Hc. cbn [careful dirty_after]. unfold allowed_seek, flat_seek. rewrite E. rewrite (proj2 (N.ltb_lt _ _) Hq).
  cbn [fst negb]. rewrite andb_false_r. split; [|exact Hc]. split; [exact He|discriminate].
Qed.
Lemma careful_write : forall f flat p b t, bytes_ok b = true -> b <> [] -> p + N.of_nat (length b) <= (p / 512 + 1) * 512 ->
  p + N.of_nat (length b) <= N.of_nat (length flat) -> careful f (splice flat (N.to_nat p) b) (p + N.of_nat (length b)) false (Some (p / 512)) t ->
  careful f flat p false None (VWrite b :: t).
Proof. intros f flat p b t H1 H2 H3 H4 Hc. cbn [careful]. split; [|exact Hc]. repeat split; auto. discriminate. Qed.
