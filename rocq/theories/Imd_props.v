(* Imd_props.v - C30: loading ImageDisk files. *)
From Verif Require Import Base Base_lemmas Chs_model Types_model MetaSector_model MetaSector_spec BitStream_model
  DiskImage_model DiskImage_spec DiskImage_proofs Raw_model Raw4_proofs Imd_model Imd_spec Imd_proofs Imd2_proofs.
From Coq Require Import Lia.

Definition imd_file (text : list N) (e : N) (ts : list TrackDesc) (tail : list N) : list N :=
  text ++ [e] ++ flat_map track_bytes ts ++ tail.
Definition text_ok (text : list N) : Prop := Forall (fun b => ~ text_end b) text.
Definition head_count (ts : list TrackDesc) : N :=
  (if existsb (fun t => td_head t =? 0)%N ts then 1 else 0) + (if existsb (fun t => td_head t =? 1)%N ts then 1 else 0).

Lemma end_true b : (b =? 0x1A)%N || (b =? 0)%N = true <-> text_end b.
Proof. unfold text_end. rewrite orb_true_iff, !N.eqb_eq. reflexivity. Qed.
Lemma skip_text_app text e r : text_ok text -> text_end e -> skip_text (text ++ [e] ++ r) = r.
Proof.
  intros H He. induction H as [|b l Hb _ IH]; cbn [app skip_text].
  - rewrite (proj2 (end_true e) He). reflexivity.
  - destruct ((b =? 0x1A)%N || (b =? 0)%N) eqn:E; [exfalso; apply Hb, end_true, E|]. exact IH.
Qed.
Lemma skip_text_inv file : skip_text file = [] \/ exists text e, text_ok text /\ text_end e /\ file = text ++ [e] ++ skip_text file.
Proof.
  induction file as [|b l IH]; [left; reflexivity|]. cbn [skip_text]. destruct ((b =? 0x1A)%N || (b =? 0)%N) eqn:E.
  - right. exists [], b. split; [constructor|]. split; [apply end_true, E|reflexivity].
  - destruct IH as [IH|(text & e & H1 & H2 & H3)]; [left; exact IH|right].
    exists (b :: text), e. split; [constructor; [intros C; apply end_true in C; congruence|exact H1]|]. split; [exact H2|].
    cbn [app]. f_equal. exact H3.
Qed.
Lemma skip_len file : length (skip_text file) <= length file.
Proof. induction file as [|b l IH]; cbn [skip_text length]; [lia|]. destruct (_ || _); lia. Qed.
Lemma default_wf : wf di_default ([], []). Proof. apply empty_wf; reflexivity. Qed.
Lemma default_meta : meta_only di_default. Proof. split; [reflexivity|left; reflexivity]. Qed.
Lemma seen_count ts : Forall valid_track ts -> N.of_nat (length (seen_all [] ts)) = head_count ts.
Proof.
  intros HF. destruct (seen_all_spec ts [] HF (NoDup_nil _)) as (A & B & C); [intros x []|].
  assert (Hin : forall x, In x (seen_all [] ts) <-> existsb (fun t => td_head t =? x)%N ts = true).
  { intros x. rewrite B, existsb_exists. split.
    - intros [[]|(t & Ht & E)]. exists t. split; [exact Ht|apply N.eqb_eq, E].
    - intros (t & Ht & E). right. exists t. split; [exact Ht|apply N.eqb_eq, E]. }
  unfold head_count.
  remember (existsb (fun t => td_head t =? 0)%N ts) as b0. remember (existsb (fun t => td_head t =? 1)%N ts) as b1.
  pose proof (Hin 0%N) as H0. pose proof (Hin 1%N) as H1. rewrite <- Heqb0 in H0. rewrite <- Heqb1 in H1.
  clear - A C H0 H1. 
  assert (P : length (seen_all [] ts) = length ((if b0 then [0%N] else []) ++ (if b1 then [1%N] else []))).
  { apply Nat.le_antisymm.
    - apply NoDup_incl_length; [exact A|]. intros x Hx. specialize (C x Hx). assert (E : x = 0%N \/ x = 1%N) by (clear - C; lia).
      destruct E as [-> | ->]; [rewrite (proj1 H0 Hx); left; reflexivity|rewrite (proj1 H1 Hx); apply in_or_app; right; left; reflexivity].
    - apply NoDup_incl_length.
      + destruct b0, b1; repeat constructor; cbn; intuition discriminate.
      + intros x Hx. apply in_app_or in Hx as [Hx|Hx].
        * destruct b0; [destruct Hx as [<-|[]]; apply H0; reflexivity|destruct Hx].
        * destruct b1; [destruct Hx as [<-|[]]; apply H1; reflexivity|destruct Hx]. }
  rewrite P. destruct b0, b1; reflexivity.
Qed.

(* Every file of valid tracks is loaded: the tracks of each head in the order of the file, every sector with the id of the maps,
   exactly the data of its record, and the deleted / error flags of its marker. *)
Theorem C30_load : forall text e ts tail, text_ok text -> text_end e -> ts <> [] -> Forall valid_track ts -> length tail < 5 ->
  exists d', imd_load_image di_default (imd_file text e ts tail) = Ok d' /\
    maps_valid d' /\ shows d' (heads_of ts) /\
    di_geom d' = mkCh (as_u16 (N.of_nat (length (filter (fun t => negb (length (td_sectors t) =? 0)) ts))) / head_count ts) (head_count ts).
Proof.
  intros text e ts tail Ht He Hne HF Htail. unfold imd_load_image. unfold imd_file. rewrite skip_text_app by auto.
  destruct (loop_fwd ts (length (text ++ [e] ++ flat_map track_bytes ts ++ tail)) di_default _ [] 0 tail HF default_wf default_meta Htail) as (d & E & W & M).
  { rewrite !app_length. cbn [length]. lia. }
  rewrite E. cbn [obind]. rewrite add_all_heads in W by exact HF. cbn [fst snd app] in W.
  pose proof (seen_count ts HF) as Hc.
  destruct (seen_all [] ts) as [|x l] eqn:Es.
  - exfalso. destruct ts as [|t ts]; [congruence|]. cbn [length] in Hc. unfold head_count in Hc. cbn [existsb] in Hc.
    inversion HF as [|? ? Hv _]; subst. pose proof (vt_head _ Hv) as Hh. assert (E0 : td_head t = 0%N \/ td_head t = 1%N) by lia.
    destruct E0 as [E0|E0]; rewrite E0 in Hc; change (0 =? 0)%N with true in Hc; change (1 =? 1)%N with true in Hc; cbn [orb] in Hc.
    + change (N.of_nat 0) with 0%N in Hc. revert Hc. match goal with |- context [if ?b then _ else _] => destruct b end; intros; lia.
    + change (N.of_nat 0) with 0%N in Hc. revert Hc. match goal with |- context [((if ?b then _ else _) + 1)%N] => destruct b end; intros; lia.
  - rewrite Hc. eexists. split; [reflexivity|].
    assert (Hs : head_count ts = as_u8 (head_count ts)).
    { symmetry. apply N.mod_small. unfold head_count. do 2 match goal with |- context [if ?b then _ else _] => destruct b end; reflexivity. }
    split; [exact (proj1 W)|].
    split; [exact (wf_shows _ _ (wf_ext d (with_geom d _) _ eq_refl eq_refl eq_refl W))|].
    cbn [with_geom di_geom]. rewrite <- Hs. f_equal. f_equal. f_equal. f_equal. f_equal. cbn [plus]. 
    f_equal. apply filter_ext. intros t. unfold nonempty. destruct (td_sectors t); reflexivity.
Qed.
(* Conversely, only such files are accepted. *)
Theorem C30_only_valid_files : forall file d', bytes_ok file = true -> imd_load_image di_default file = Ok d' ->
  exists text e ts tail, file = imd_file text e ts tail /\ text_ok text /\ text_end e /\ ts <> [] /\ Forall valid_track ts /\ length tail < 5.
Proof.
  intros file d' Hb H. unfold imd_load_image in H.
  destruct (imd_loop (length file) di_default [] 0 (skip_text file)) as [[[d seen] ct]| |] eqn:E; cbn [obind] in H; try discriminate.
  assert (Hbs : bytes_ok (skip_text file) = true).
  { destruct (skip_text_inv file) as [->|(text & e & _ & _ & Ef)]; [reflexivity|]. rewrite Ef, !bytes_ok_app in Hb.
    apply andb_prop in Hb as [_ Hb]. apply andb_prop in Hb as [_ Hb]. exact Hb. }
  destruct (loop_bwd _ _ _ _ _ _ _ _ _ default_wf default_meta (skip_len file) Hbs E) as (ts & tail & Es & Ht & HF).
  destruct ts as [|t ts].
  - exfalso. cbn [flat_map app] in Es. rewrite Es in E.
    assert (imd_loop (length file) di_default [] 0 tail = Ok (di_default, [], 0)) as E2.
    { destruct (length file); [reflexivity|]. destruct tail as [|? [|? [|? [|? [|]]]]]; try reflexivity. cbn [length] in Ht. lia. }
    rewrite E2 in E. assert (seen = []) by congruence. subst. discriminate.
  - destruct (skip_text_inv file) as [E0|(text & e & H1 & H2 & Ef)].
    + exfalso. rewrite E0 in Es. pose proof (track_bytes_len t). apply (f_equal (@length N)) in Es. cbn [flat_map] in Es. rewrite !app_length in Es. cbn [length] in Es. lia.
    + exists text, e, (t :: ts), tail. split; [rewrite Ef, Es; reflexivity|]. repeat (split; [assumption || discriminate|]). exact Ht.
Qed.
(* The loader panics exactly on files without a complete track header, and on a valid header announcing 128 or more sectors. *)
Theorem C30_panics : forall file, bytes_ok file = true ->
  imd_load_image di_default file = Panic <->
  length (skip_text file) < 5 \/
  exists text e ts mode c h n size r, file = text ++ [e] ++ flat_map track_bytes ts ++ [mode; c; h; n; size] ++ r /\ text_ok text /\ text_end e /\
    Forall valid_track ts /\ (mode < 6 /\ N.land h 0x3F < 2 /\ size < 7 /\ 128 <= n)%N.
Proof.
  intros file Hb.
  assert (Hbs : bytes_ok (skip_text file) = true).
  { destruct (skip_text_inv file) as [->|(text & e & _ & _ & Ef)]; [reflexivity|]. rewrite Ef, !bytes_ok_app in Hb.
    apply andb_prop in Hb as [_ Hb]. apply andb_prop in Hb as [_ Hb]. exact Hb. }
  split.
  - intros H. unfold imd_load_image in H.
    destruct (imd_loop (length file) di_default [] 0 (skip_text file)) as [[[d seen] ct]| |] eqn:E; cbn [obind] in H; try discriminate.
    + left. destruct (loop_bwd _ _ _ _ _ _ _ _ _ default_wf default_meta (skip_len file) Hbs E) as (ts & tail & Es & Ht & HF).
      destruct ts as [|t ts]; [rewrite Es; exact Ht|]. exfalso.
      assert (Hl : length (flat_map track_bytes (t :: ts) ++ tail) <= length file) by (rewrite <- Es; apply skip_len).
      destruct (loop_fwd (t :: ts) (length file) di_default _ [] 0 tail HF default_wf default_meta Ht Hl) as (d2 & E2 & _).
      rewrite Es, E2 in E. assert (seen = seen_all [] (t :: ts)) by congruence. subst seen.
      destruct (seen_all_spec (t :: ts) [] HF (NoDup_nil _)) as (_ & B & _); [intros x []|].
      destruct (seen_all [] (t :: ts)) as [|x l]; [|discriminate].
      assert (In (td_head t) []) as []. { apply B. right. exists t. split; [left; reflexivity|reflexivity]. }
    + right. destruct (loop_panic _ _ _ _ _ _ default_wf default_meta (skip_len file) Hbs E) as (ts & hd & r & Es & HF & Hv & Hc).
      destruct (skip_text_inv file) as [E0|(text & e & H1 & H2 & Ef)].
      * exfalso. rewrite E0 in Es. apply (f_equal (@length N)) in Es. rewrite !app_length in Es. cbn [length] in Es. lia.
      * exists text, e, ts, (im_mode hd), (im_c hd), (im_h hd), (im_ct hd), (im_size hd), r. split; [rewrite Ef, Es; reflexivity|].
        split; [exact H1|]. split; [exact H2|]. split; [exact HF|].
        unfold imd_valid in Hv. apply andb_prop in Hv as [Hv V3]. apply andb_prop in Hv as [V1 V2].
        apply N.ltb_lt in V1. apply N.ltb_lt in V2. apply N.ltb_lt in V3. auto.
  - intros [H|(text & e & ts & mode & c & h & n & size & r & Ef & Ht & He & HF & V1 & V2 & V3 & V4)]; unfold imd_load_image.
    + assert (E : imd_loop (length file) di_default [] 0 (skip_text file) = Ok (di_default, [], 0)).
      { destruct (length file); [reflexivity|]. destruct (skip_text file) as [|? [|? [|? [|? [|]]]]]; try reflexivity. cbn [length] in H. lia. }
      rewrite E. reflexivity.
    + assert (P : forall ts d s seen ct fuel, Forall valid_track ts -> wf d s -> meta_only d ->
         length (flat_map track_bytes ts ++ [mode; c; h; n; size] ++ r) <= fuel ->
         imd_loop fuel d seen ct (flat_map track_bytes ts ++ [mode; c; h; n; size] ++ r) = Panic).
      { clear - V1 V2 V3 V4. induction ts as [|t ts IH]; intros d s seen ct fuel HF Hwf Hm Hf.
        - destruct fuel as [|fuel]; [cbn in Hf; lia|]. cbn [flat_map app imd_loop].
          assert (E : imd_track d (mkImd mode c h n size) r = Panic); [|rewrite E; reflexivity].
          unfold imd_track, imd_valid. cbn [im_mode im_h im_size im_ct].
          rewrite (proj2 (N.ltb_lt _ _) V1), (proj2 (N.ltb_lt _ _) V2), (proj2 (N.ltb_lt _ _) V3). cbn [andb negb].
          rewrite (proj2 (size_n _ V3)). destruct (N.leb_spec 256 (n * 2)) as [L|L]; [reflexivity|exfalso; clear - V4 L; lia].
        - inversion HF as [|? ? Hv HF']; subst. cbn [flat_map] in Hf |- *. rewrite <- app_assoc in Hf |- *.
          pose proof (track_bytes_len t) as L5. rewrite app_length in Hf.
          destruct fuel as [|fuel]; [exfalso; clear - L5 Hf; lia|].
          rewrite track_bytes_parts. cbn [app imd_loop].
          change (mkImd (im_mode (header_of t)) (im_c (header_of t)) (im_h (header_of t)) (im_ct (header_of t)) (im_size (header_of t))) with (header_of t).
          destruct (track_fwd d s t (flat_map track_bytes ts ++ [mode; c; h; n; size] ++ r) Hv Hwf Hm) as (d1 & E & W & M).
          cbn [app] in E. rewrite E. cbn [obind]. eapply IH; [exact HF'|exact W|exact M|]. cbn [app] in Hf |- *. clear - Hf L5. lia. }
      rewrite Ef at 2. rewrite skip_text_app by auto.
      rewrite (P ts di_default ([], []) [] 0 (length file) HF default_wf default_meta); [reflexivity|].
      rewrite Ef, !app_length. lia.
Qed.
(* One data record: exactly the markers 0 to 6 are accepted. *)
Theorem C30_unknown_marker : forall marker size rest, (6 < marker)%N -> imd_read_data marker size rest = Err FormatParseError.
Proof.
  intros marker size rest H. destruct marker as [|p]; [discriminate|].
  destruct p as [[[p|p|]|[p|p|]|]|[[p|p|]|[p|p|]|]|]; try reflexivity; discriminate.
Qed.

(* Findings. *)
Definition one_track (c : N) (ss : list SectorDesc) : TrackDesc := mkTD 5 c 0 0 false false ss.
(* a sector whose data was unavailable is not marked as lacking data, and writing to it panics *)
Theorem C30_unavailable_refuted : exists d',
  imd_load_image di_default (imd_file [0x49; 0x4D; 0x44]%N 0x1A [one_track 0 [mkSD 1 0 0 Unavailable]] []) = Ok d' /\
  (forall rnd, exists r, di_read_sector rnd d' (mkCh 0 0) (mkQuery None None 1 None) None None DataOnly false = Ok r /\
     rs_no_dam r = false /\ rs_data_crc_error r = false /\ rs_buf r = []) /\
  di_write_sector d' (mkCh 0 0) (mkQuery None None 1 None) None (repeat 0%N 128) DataOnly false false = Panic.
Proof.
  eexists. split; [vm_compute; reflexivity|]. split.
  - intros rnd. eexists. split; [cbv; reflexivity|]. split; [reflexivity|]. split; reflexivity.
  - vm_compute. reflexivity.
Qed.
(* a track is stored under its position in the file, not under its cylinder number *)
Theorem C30_cylinder_refuted : exists d',
  imd_load_image di_default (imd_file [0x49; 0x4D; 0x44]%N 0x1A [one_track 5 [mkSD 1 5 0 (Fill Normal 0xE5)]] []) = Ok d' /\
  di_track d' (mkCh 5 0) = Ok None /\ exists t, di_track d' (mkCh 0 0) = Ok (Some t) /\ tk_ch t = mkCh 5 0.
Proof.
  eexists. split; [vm_compute; reflexivity|]. split; [vm_compute; reflexivity|]. eexists. split; [vm_compute; reflexivity|reflexivity].
Qed.
(* a sector count of 128 or more overflows *)
Theorem C30_128_sectors_refuted : exists file, bytes_ok file = true /\ imd_load_image di_default file = Panic /\
  file = imd_file [] 0x1A [mkTD 5 0 0 0 false false (repeat (mkSD 1 0 0 (Fill Normal 0)) 128)] [].
Proof. eexists. split; [|split; [|reflexivity]]; vm_compute; reflexivity. Qed.

Example C30_ex : valid_track (mkTD 5 3 1 1 true true
    [mkSD 1 3 1 (Plain Normal (repeat 7%N 256)); mkSD 2 9 0 (Fill Deleted 0xF6); mkSD 3 3 1 (Fill DataError 0); mkSD 4 3 1 Unavailable]).
Proof.
  constructor; cbn [td_mode td_head td_size td_sectors td_cylmap td_headmap]; try reflexivity; try discriminate.
  - cbn [length]. lia.
  - intros s f d [<-|[<-|[<-|[<-|[]]]]] E; cbn [sd_content] in E; try discriminate. injection E as <- <-. reflexivity.
Qed.

Print Assumptions C30_load.
Print Assumptions C30_only_valid_files.
Print Assumptions C30_panics.
Print Assumptions C30_unknown_marker.
Print Assumptions C30_unavailable_refuted.
Print Assumptions C30_cylinder_refuted.
Print Assumptions C30_128_sectors_refuted.
