(* Format2_proofs.v - formatting a whole disk image. *)
From Coq Require Import String List.
From Verif Require Import Base Base_lemmas Chs_model Chs_proofs BitRing_model Mfm_model Types_model System34_model System34_spec MetaSector_model MetaSector_spec
  BitStream_model BitStream_spec MetaSector_proofs Bs_more_proofs S34_layout_proofs S34_meta_proofs S34_track_proofs S34_ops_proofs S34_write_proofs Bs_general_proofs Bs_history_proofs
  DiskImage_model DiskImage_spec DiskImage_proofs DiskImage2_proofs Format_model Format_spec Format_proofs.
Import ListNotations.

(* ---- one track ---- *)
Lemma sum_const : forall {A} (f : A -> nat) k l, (forall x, In x l -> f x = k) -> list_sum (map f l) = length l * k.
Proof.
  intros A f k. induction l as [|x l IH]; intros H; [reflexivity|]. cbn [map list_sum fold_right length]. fold (list_sum (map f l)).
  rewrite IH by (intros; apply H; right; auto). rewrite H by (left; auto). reflexivity.
Qed.
Lemma filled_In : forall pat ids k s, In s (filled pat k ids) -> exists j, In (fs_id s) ids /\ fs_data s = fill pat j (n_size (fs_id s)).
Proof.
  intros pat. induction ids as [|i ids IH]; intros k s H; cbn [filled] in H; [destruct H|]. destruct H as [<-|H].
  - exists k. cbn. auto.
  - destruct (IH _ _ H) as (j & A & B). exists j. cbn. auto.
Qed.
Lemma fill_zero : forall k n, fill [0%N] k n = repeat 0%N n.
Proof.
  intros k n. unfold fill. cbn [length]. transitivity (map (fun _ : nat => 0%N) (seq 0 n)).
  - apply map_ext. intros i. rewrite Nat.mod_1_r. reflexivity.
  - clear. generalize 0. induction n as [|n IH]; intros s; cbn [seq map repeat]; [reflexivity|]. f_equal. apply IH.
Qed.
Lemma layout_facts : forall f, is_pc f -> (l_size (sf_layout f) = 512 /\ l_h (sf_layout f) <= 2 /\ l_c (sf_layout f) <= 80 /\ 0 < l_c (sf_layout f) /\ 0 < l_h (sf_layout f)
  /\ 0 < l_s (sf_layout f) <= 36 /\ 0 < sf_bitcell_ct f /\
  16 * (92 + l_s (sf_layout f) * (574 + sf_gap3 f)) <= sf_bitcell_ct f)%N.
Proof. intros f [H1 H2]. destruct f; try congruence; cbn -[N.mul N.add]; repeat split; lia. Qed.
Lemma format_ids_nth : forall f ch k, nth_error (format_ids f ch) k =
  if k <? N.to_nat (l_s (sf_layout f)) then Some (mkChsn (mkChs (ch_c ch) (ch_h ch) (N.of_nat k + 1)) 2) else None.
Proof.
  intros f ch k. unfold format_ids. rewrite nth_error_map, nth_error_Nseq.
  assert (E : bytes_to_n (l_size (sf_layout f)) = 2%N) by (destruct f; vm_compute; reflexivity). rewrite E.
  destruct (Nat.ltb_spec k (N.to_nat (l_s (sf_layout f)))); destruct (N.ltb_spec (N.of_nat k) (l_s (sf_layout f))); cbn [option_map]; try lia; reflexivity.
Qed.
Lemma format_ids_length : forall f ch, length (format_ids f ch) = N.to_nat (l_s (sf_layout f)).
Proof. intros. unfold format_ids. rewrite map_length, Nseq_length. reflexivity. Qed.
Lemma format_ids_in : forall f ch id, In id (format_ids f ch) -> exists s, (1 <= s <= l_s (sf_layout f))%N /\ id = mkChsn (mkChs (ch_c ch) (ch_h ch) s) 2.
Proof.
  intros f ch id H. apply In_nth_error in H as [k Hk]. rewrite format_ids_nth in Hk.
  destruct (Nat.ltb_spec k (N.to_nat (l_s (sf_layout f)))); [|discriminate]. injection Hk as <-. exists (N.of_nat k + 1)%N. split; [lia|reflexivity].
Qed.
(* a formatted track: the structure of the format, with the given data *)
Definition fmt_track (f : StandardFormat) (ch : DiskCh) (data : N -> list N) (t : BitTrack) : Prop :=
  exists std ss B, good std (N.to_nat (sf_gap3 f)) ss t B /\ bt_schema t = true /\ bt_ch t = ch /\ map fs_id ss = format_ids f ch /\
    forall k s, nth_error ss k = Some s -> fs_data s = data (N.of_nat k + 1)%N.

Lemma blank_bits : forall cells, cells <> 0 -> exists m, mfm_new (empty_bits cells (Some false)) None None = Ok m /\ mfm_len m = cells /\
  forall ch, formattable (mkTrack ch m meta_default true).
Proof.
  intros cells Hc.
  assert (Hm : exists m, mfm_new (empty_bits cells (Some false)) None None = Ok m /\ mfm_data m = empty_bits cells (Some false)).
  { unfold mfm_new. rewrite repeat_length, Nat.ltb_irrefl. eexists. split; reflexivity. }
  destruct Hm as (m & Em & Ed). exists m. split; [exact Em|].
  assert (Hl : mfm_len m = cells).
  { unfold mfm_len, ring_len. fold (mfm_data m). rewrite Ed. unfold empty_bits. rewrite map_length, seq_length. reflexivity. }
  split; [exact Hl|]. intros ch. destruct (mfm_new_fmt _ _ _ Em) as (P1 & P2 & P3 & P4); [lia|]. apply formattable_parts; cbn [bt_data]; auto.
Qed.
Lemma format_gen : forall rnd std f ch t pat, is_pc f -> std = SIso \/ std = SIbm -> (ch_c ch < l_c (sf_layout f))%N -> (ch_h ch < l_h (sf_layout f))%N ->
  formattable t -> bt_schema t = true -> bt_ch t = ch -> mfm_len (bt_data t) = N.to_nat (sf_bitcell_ct f) -> pat <> [] -> bytes_ok pat = true ->
  exists t', bt_format rnd t std (format_ids f ch) pat (N.to_nat (sf_gap3 f)) = Ok t' /\
    exists B, good std (N.to_nat (sf_gap3 f)) (filled pat 0 (format_ids f ch)) t' B /\ bt_schema t' = true /\ bt_ch t' = ch.
Proof.
  intros rnd std f ch t pat Hpc Hstd Hc Hh F S C L Hp Hb. destruct (layout_facts f Hpc) as (_ & F1 & F2 & _ & _ & F3 & F4 & F5).
  assert (Hid : Forall id_ok (format_ids f ch)).
  { apply Forall_forall. intros id Hi. apply format_ids_in in Hi as (s & Hs & ->). unfold id_ok, bytes_ok, is_byte.
    cbn [forallb]. unfold chsn_c, chsn_h, chsn_s. cbn. rewrite !andb_true_iff, !N.ltb_lt. repeat split; lia. }
  assert (Hn : forall s, In s (filled pat 0 (format_ids f ch)) -> length (fs_data s) = 512).
  { intros s Hs. apply filled_In in Hs as (j & Hi & ->). apply format_ids_in in Hi as (x & _ & Ex). rewrite Ex. unfold fill. rewrite map_length, seq_length. reflexivity. }
  destruct (format_good rnd t std (format_ids f ch) pat (N.to_nat (sf_gap3 f)) F) as (t' & E & G & S' & C' & _);
    [exact Hp|exact Hb|exact Hid| |].
  - assert (Hg : gap2_len std = 22) by (destruct Hstd as [-> | ->]; reflexivity).
    assert (Hpl : length (preamble std) <= 92) by (destruct Hstd as [-> | ->]; cbn [preamble]; rewrite ?app_length, !repeat_length; lia).
    split.
    + rewrite L. apply Nat.div_le_lower_bound; [lia|]. clear - F5 F3 Hstd. destruct Hstd as [-> | ->]; nia.
    + rewrite layout_length, L.
      rewrite (sum_const _ (574 + N.to_nat (sf_gap3 f))).
      2:{ intros s Hs. unfold sector_len. rewrite (Hn s Hs), Hg. lia. }
      assert (Hl : length (filled pat 0 (format_ids f ch)) = N.to_nat (l_s (sf_layout f))).
      { rewrite <- (map_length fs_id), filled_ids. apply format_ids_length. }
      rewrite Hl. apply Nat.div_le_lower_bound; [lia|]. clear - F5 Hpl. nia.
  - exists t'. split; [exact E|]. eexists. split; [exact G|]. split; congruence.
Qed.
Lemma format_one : forall rnd f ch t, is_pc f -> (ch_c ch < l_c (sf_layout f))%N -> (ch_h ch < l_h (sf_layout f))%N ->
  formattable t -> bt_schema t = true -> bt_ch t = ch -> mfm_len (bt_data t) = N.to_nat (sf_bitcell_ct f) ->
  exists t', bt_format rnd t SIso (format_ids f ch) [0%N] (N.to_nat (sf_gap3 f)) = Ok t' /\ fmt_track f ch (fun _ => zeros) t'.
Proof.
  intros rnd f ch t Hpc Hc Hh F S C L.
  destruct (format_gen rnd SIso f ch t [0%N] Hpc (or_introl eq_refl) Hc Hh F S C L) as (t' & E & B & G & S' & C'); [discriminate|reflexivity|].
  exists t'. split; [exact E|]. exists SIso, (filled [0%N] 0 (format_ids f ch)), B. split; [exact G|]. split; [exact S'|]. split; [exact C'|]. split; [apply filled_ids|].
  intros k s Hk. apply nth_error_In, filled_In in Hk as (j & Hi & ->). apply format_ids_in in Hi as (x & _ & ->). rewrite fill_zero. reflexivity.
Qed.

Lemma fmt_lookup : forall std f ch ss s, map fs_id ss = format_ids f ch -> Forall sector_ok ss -> (1 <= s <= l_s (sf_layout f))%N ->
  exists o x, nth_error ss (N.to_nat s - 1) = Some x /\ fs_id x = mkChsn (mkChs (ch_c ch) (ch_h ch) s) 2 /\
    lookup (sector_query (ch_c ch) (ch_h ch) s) 0 (track_slots std (N.to_nat (sf_gap3 f)) ss) = Some (N.to_nat s - 1, (o, x)).
Proof.
  intros std f ch ss s Hids Hok Hs. set (k := N.to_nat s - 1).
  assert (Hk : nth_error (format_ids f ch) k = Some (mkChsn (mkChs (ch_c ch) (ch_h ch) s) 2)).
  { rewrite format_ids_nth. destruct (Nat.ltb_spec k (N.to_nat (l_s (sf_layout f)))); [|unfold k in *; lia]. repeat f_equal. unfold k. lia. }
  assert (Hp : exists p, nth_error (header_pos std (N.to_nat (sf_gap3 f)) (map fs_id ss)) k = Some p).
  { destruct (nth_error (header_pos std (N.to_nat (sf_gap3 f)) (map fs_id ss)) k) eqn:E; [eauto|]. apply nth_error_None in E.
    rewrite header_pos_ss in E by auto. rewrite map_length in E. unfold track_slots in E.
    assert (Hsl : forall l o, length (slots std (N.to_nat (sf_gap3 f)) o l) = length l) by (induction l; intros; cbn; auto).
    rewrite Hsl in E. assert (Hl : length ss = length (format_ids f ch)) by (rewrite <- Hids, map_length; reflexivity).
    rewrite Hl in E. apply nth_error_None in E. congruence. }
  destruct Hp as [p Hp].
  destruct (lookup_first std (N.to_nat (sf_gap3 f)) ss (sector_query (ch_c ch) (ch_h ch) s) 0 k Hok) as (o & x & Hx & Hl).
  - split.
    + rewrite Hids in *. exists (mkChsn (mkChs (ch_c ch) (ch_h ch) s) 2), p. split; [exact Hk|]. split; [exact Hp|]. split; [lia|].
      unfold agrees, sector_query, chsn_c, chsn_h, chsn_s. cbn. repeat split; intros; congruence.
    + intros j id q Hj Hi _ _ Ha. rewrite Hids, format_ids_nth in Hi. destruct (Nat.ltb_spec j (N.to_nat (l_s (sf_layout f)))); [|discriminate].
      injection Hi as <-. unfold agrees, sector_query, chsn_c, chsn_h, chsn_s in Ha. cbn in Ha. unfold k in *. lia.
  - exists o, x. split; [exact Hx|]. split; [|exact Hl].
    assert (E : nth_error (map fs_id ss) k = Some (fs_id x)) by (rewrite nth_error_map, Hx; reflexivity). rewrite Hids, Hk in E. congruence.
Qed.
Lemma read_n : forall std gap3 ss t B, good std gap3 ss t B -> bt_schema t = true -> forall rnd q offset k o s debug,
  lookup q (off_of offset) (track_slots std gap3 ss) = Some (k, (o, s)) ->
  bt_read_sector rnd t q (Some (chsn_n (fs_id s))) offset DataOnly debug = bt_read_sector rnd t q None offset DataOnly debug.
Proof.
  intros std gap3 ss t B G Hs rnd q offset k o s debug Hl. unfold bt_read_sector. rewrite Hs. cbn [negb]. unfold scan_sector_element. rewrite Hs. cbn [obind].
  rewrite (g_meta _ _ _ _ _ G). cbn [meta_new md_items]. rewrite find_track, Hl. reflexivity.
Qed.
Lemma fmt_read : forall f ch data t, fmt_track f ch data t -> forall rnd s debug, (1 <= s <= l_s (sf_layout f))%N ->
  forall n, n = None \/ n = Some 2%N -> exists r, bt_read_sector rnd t (sector_query (ch_c ch) (ch_h ch) s) n None DataOnly debug = Ok r /\
    rs_not_found r = false /\ rs_address_crc_error r = false /\ rs_no_dam r = false /\ rs_data_crc_error r = false /\ read_data_of r = Ok (data s).
Proof.
  intros f ch data t (std & ss & B & G & Hs & _ & Hids & Hd) rnd s debug Hin n Hn.
  destruct (fmt_lookup std f ch ss s Hids (g_ok _ _ _ _ _ G) Hin) as (o & x & Hx & Hid & Hl).
  assert (E : bt_read_sector rnd t (sector_query (ch_c ch) (ch_h ch) s) n None DataOnly debug =
              bt_read_sector rnd t (sector_query (ch_c ch) (ch_h ch) s) None None DataOnly debug).
  { destruct Hn as [-> | ->]; [reflexivity|]. replace (Some 2%N) with (Some (chsn_n (fs_id x))) by (rewrite Hid; reflexivity).
    eapply read_n; eauto. }
  rewrite E. rewrite (S34_ops_proofs.read_found _ _ _ _ _ G rnd _ None _ _ _ debug Hs Hl). eexists. split; [reflexivity|].
  repeat (split; [reflexivity|]). unfold read_data_of. cbn [rs_range rs_buf].
  specialize (Hd _ _ Hx). replace (N.of_nat (N.to_nat s - 1) + 1)%N with s in Hd by lia. rewrite <- Hd.
  rewrite data_field_split. rewrite !app_length. cbn [length].
  destruct (Nat.ltb_spec (4 + length (fs_data x)) 4); [lia|]. cbn [orb].
  match goal with |- context [?a <? ?b] => destruct (Nat.ltb_spec a b); [lia|] end.
  f_equal. replace (4 + length (fs_data x) - 4) with (length (fs_data x)) by lia.
  unfold slice. rewrite <- app_assoc. cbn [app skipn]. rewrite firstn_app, firstn_all, Nat.sub_diag. cbn [firstn]. apply app_nil_r.
Qed.

Lemma fmt_write : forall f ch data t, fmt_track f ch data t -> forall s d, (1 <= s <= l_s (sf_layout f))%N -> length d = 512 -> bytes_ok d = true ->
  exists t' w, bt_write_sector t (sector_query (ch_c ch) (ch_h ch) s) None d DataOnly false false = Ok (t', w) /\
    (wr_not_found w = false /\ wr_address_crc_error w = false /\ wr_no_dam w = false) /\
    fmt_track f ch (fun x => if (x =? s)%N then d else data x) t'.
Proof.
  intros f ch data t (std & ss & B & G & Hs & Hc & Hids & Hd) s d Hin Hl Hb.
  destruct (fmt_lookup std f ch ss s Hids (g_ok _ _ _ _ _ G) Hin) as (o & x & Hx & Hid & Hlk).
  assert (Hlen : length (fs_data x) = 512).
  { pose proof (g_ok _ _ _ _ _ G) as Hok. rewrite Forall_forall in Hok. destruct (Hok x (nth_error_In _ _ Hx)) as [E _]. rewrite E, Hid. reflexivity. }
  destruct (S34_write_proofs.write_found _ _ _ _ _ G (sector_query (ch_c ch) (ch_h ch) s) None _ _ _ d DataOnly false Hs Hlk) as (t' & E & G' & _ & _ & Hs' & Hc' & _); [congruence|exact Hb|].
  eexists. eexists. split; [exact E|]. split; [repeat split|]. exists std. eexists. eexists. split; [exact G'|]. split; [exact Hs'|]. split; [congruence|]. split.
  - rewrite map_upd. cbn [fs_id]. rewrite <- Hids. apply upd_same. rewrite nth_error_map, Hx. reflexivity.
  - intros k y Hk. destruct (Nat.eq_dec k (N.to_nat s - 1)) as [->|Hne].
    + rewrite nth_error_upd_same in Hk by (apply nth_error_Some; congruence). injection Hk as <-. cbn [fs_data].
      replace (N.of_nat (N.to_nat s - 1) + 1)%N with s by lia. rewrite N.eqb_refl. reflexivity.
    + rewrite nth_error_upd_other in Hk by auto. rewrite (Hd _ _ Hk).
      destruct (N.eqb_spec (N.of_nat k + 1) s); [lia|reflexivity].
Qed.

Definition clean_elem (e : Elem) : Prop :=
  match e with ElMarker _ => True | ElHeader _ ae dm => ae = false /\ dm = false | ElData _ ae de del => ae = false /\ de = false /\ del = false end.
Lemma track_items_clean : forall std gap3 ss, Forall clean_elem (map i_elem (track_items std gap3 ss)).
Proof.
  intros std gap3 ss. assert (E : forall l, map i_elem l = flat_map (fun i => [i_elem i]) l) by (induction l; cbn; congruence).
  rewrite E. unfold track_items. rewrite map_last_flat by (intros []; reflexivity). rewrite flat_map_app. apply Forall_app. split.
  - unfold iam_items. destruct (iam_at std); cbn; repeat constructor.
  - unfold track_slots. generalize (length (preamble std)). induction ss as [|s ss IH]; intros off; [constructor|].
    cbn [slots flat_map]. rewrite flat_map_app. apply Forall_app. split; [|apply IH]. cbn. repeat constructor.
Qed.
Lemma clean_existsb : forall (g : Elem -> bool) l, Forall clean_elem l -> (forall e, clean_elem e -> g e = false) -> existsb g l = false.
Proof. induction l as [|e l IH]; intros H Hg; [reflexivity|]. inversion H; subst. cbn [existsb]. rewrite Hg, IH; auto. Qed.
(* the analysis of a formatted and of a blank track *)
Lemma fmt_analysis : forall f ch data t, is_pc f -> fmt_track f ch data t -> exists a, bt_analysis t = Ok a /\
  ta_data_error a = false /\ ta_address_error a = false /\ ta_deleted a = false /\ ta_no_dam a = false /\
  ta_sector_ct a = N.to_nat (l_s (sf_layout f)) /\ ta_consistent_size a = Some 2%N.
Proof.
  intros f ch data t Hpc (std & ss & B & G & Hs & _ & Hids & _). destruct (layout_facts f Hpc) as (_ & _ & _ & _ & _ & Hl & _).
  unfold bt_analysis. rewrite Hs, (g_meta _ _ _ _ _ G). cbn [meta_new md_items md_ids]. rewrite items_ids, Hids.
  unfold analyze_elements, ids_nonconsecutive.
  destruct (Bs_more_proofs.nonconsecutive_spec (format_ids f ch) 0 false) as (b & E & _); [rewrite format_ids_length; lia|]. rewrite E. cbn [obind].
  eexists. split; [reflexivity|]. cbn [ta_data_error ta_address_error ta_deleted ta_no_dam ta_sector_ct ta_consistent_size].
  pose proof (track_items_clean std (N.to_nat (sf_gap3 f)) ss) as Hcl.
  split; [apply clean_existsb; [exact Hcl|intros [] He; cbn in He; intuition congruence]|].
  split; [apply clean_existsb; [exact Hcl|intros [] He; cbn in He; intuition congruence]|].
  split; [apply clean_existsb; [exact Hcl|intros [] He; cbn in He; intuition congruence]|].
  split; [apply clean_existsb; [exact Hcl|intros [] He; cbn in He; intuition congruence]|].
  split; [apply format_ids_length|].
  assert (Hn : map chsn_n (format_ids f ch) = repeat 2%N (length (format_ids f ch))).
  { assert (Ha : Forall (fun id => chsn_n id = 2%N) (format_ids f ch)).
    { apply Forall_forall. intros id Hi. apply format_ids_in in Hi as (s & _ & ->). reflexivity. }
    clear - Ha. induction (format_ids f ch) as [|x l IH]; [reflexivity|]. inversion Ha as [|? ? Hx Hl]; subst. cbn [map repeat length]. f_equal; auto. }
  rewrite Hn, format_ids_length. destruct (N.to_nat (l_s (sf_layout f))) as [|k] eqn:Ek; [lia|].
  assert (Hnd : forall j, nodup N.eq_dec (repeat 2%N (S j)) = [2%N]).
  { induction j as [|j IH]; [reflexivity|]. change (repeat 2%N (S (S j))) with (2%N :: repeat 2%N (S j)). cbn [nodup].
    destruct (in_dec N.eq_dec 2%N (repeat 2%N (S j))) as [_|Hno]; [exact IH|]. exfalso. apply Hno. left. reflexivity. }
  rewrite Hnd. cbn [length]. change (1 <? 1) with false. cbn iota. f_equal.
  clear. induction k as [|k IH]; [reflexivity|]. change (repeat 2%N (S (S k))) with (2%N :: repeat 2%N (S k)). cbn [last]. exact IH.
Qed.

(* ---- tables of tracks ---- *)
Definition tab (F : N -> N -> DTrack) (C H : N) : Heads :=
  (map (F 0%N) (Nseq C), if (H <? 2)%N then [] else map (F 1%N) (Nseq C)).
Definition set_side (s : Heads) (h : N) (l : list DTrack) : Heads := match h with 0%N => (l, snd s) | _ => (fst s, l) end.
Lemma sfold_app : forall {S A} (g : S -> A -> S * outcome unit) l1 l2 s s1, sfold g l1 s = (s1, Ok tt) -> sfold g (l1 ++ l2) s = sfold g l2 s1.
Proof.
  intros S A g. induction l1 as [|x l1 IH]; intros l2 s s1 H; cbn [sfold app] in *; [congruence|].
  destruct (g s x) as [s' [[]|e|]]; try discriminate. apply IH, H.
Qed.
Lemma Nseq_S : forall n, Nseq (N.of_nat (S n)) = Nseq (N.of_nat n) ++ [N.of_nat n].
Proof. intros n. unfold Nseq. rewrite !Nat2N.id, seq_S, map_app. reflexivity. Qed.
Lemma tab_nth : forall (F : N -> DTrack) C c, nth_error (map F (Nseq C)) (N.to_nat c) = if (c <? C)%N then Some (F c) else None.
Proof.
  intros F C c. rewrite nth_error_map, nth_error_Nseq, N2Nat.id.
  destruct (Nat.ltb_spec (N.to_nat c) (N.to_nat C)); destruct (N.ltb_spec c C); cbn [option_map]; try lia; reflexivity.
Qed.
Lemma side_tab : forall F C H c h, (H = 1 \/ H = 2)%N -> nth_error (side (tab F C H) h) (N.to_nat c) =
  if (c <? C)%N && (h <? H)%N then Some (F h c) else None.
Proof.
  intros F C H c h HH. unfold tab, side. 
  assert (E : h = 0%N \/ h = 1%N \/ (2 <= h)%N) by lia. destruct E as [-> | [-> | E]].
  - cbn [fst]. rewrite tab_nth. destruct HH as [-> | ->]; rewrite andb_true_r; reflexivity.
  - cbn [snd]. destruct HH as [-> | ->].
    + change (1 <? 2)%N with true. change (1 <? 1)%N with false. rewrite andb_false_r. destruct (N.to_nat c); reflexivity.
    + change (2 <? 2)%N with false. change (1 <? 2)%N with true. rewrite andb_true_r. apply tab_nth.
  - assert (Hn : (h <? H)%N = false) by (apply N.ltb_ge; lia). rewrite Hn, andb_false_r.
    destruct h as [|[p|p|]]; try lia; destruct (N.to_nat c); reflexivity.
Qed.
Lemma replace_tab : forall F C H c h t, (H = 1 \/ H = 2)%N -> (c < C)%N -> (h < H)%N ->
  replace_at (tab F C H) (mkCh c h) t = tab (fun h' c' => if (h' =? h)%N && (c' =? c)%N then t else F h' c') C H.
Proof.
  intros F C H c h t HH Hc Hh. unfold replace_at, tab. cbn [ch_h ch_c].
  assert (U : forall G : N -> DTrack, upd (map G (Nseq C)) (N.to_nat c) t = map (fun c' => if (c' =? c)%N then t else G c') (Nseq C)).
  { intros G. apply list_eq_nth_error. intros j. destruct (Nat.eq_dec j (N.to_nat c)) as [->|Hj].
    - rewrite nth_error_upd_same by (rewrite map_length, Nseq_length; lia).
      rewrite (tab_nth (fun c' => if (c' =? c)%N then t else G c')). rewrite N.eqb_refl. destruct (N.ltb_spec c C); [reflexivity|lia].
    - rewrite nth_error_upd_other by auto. rewrite !nth_error_map, nth_error_Nseq. destruct (j <? N.to_nat C) eqn:Ej; [|reflexivity].
      cbn [option_map]. destruct (N.eqb_spec (N.of_nat j) c); [lia|reflexivity]. }
  assert (E : h = 0%N \/ h = 1%N) by lia. destruct E as [-> | ->]; cbn [fst snd].
  - f_equal.
    + rewrite U. apply map_ext. intros c'. reflexivity.
  - assert (H = 2)%N by lia. subst H. change (2 <? 2)%N with false. cbn iota. f_equal. rewrite U. apply map_ext. intros c'. reflexivity.
Qed.

(* ---- adding the blank tracks ---- *)
Definition res_free (d : DiskImage) : Prop := di_multires d = false /\ (di_res d = [] \/ di_res d = [RBitStream]).
Definition add_step (f : StandardFormat) (d : DiskImage) (ch : DiskCh) : DiskImage * outcome unit :=
  let (d', r) := add_empty_track d ch (Some RBitStream) (N.to_nat (sf_bitcell_ct f)) (Some false) in (d', omap (fun _ => tt) r).
Lemma add_one : forall f m d s ch, mfm_new (empty_bits (N.to_nat (sf_bitcell_ct f)) (Some false)) None None = Ok m ->
  wf d s -> res_free d -> (ch_h ch < 2)%N -> length (side s (ch_h ch)) = N.to_nat (ch_c ch) ->
  exists d', add_step f d ch = (d', Ok tt) /\ wf d' (append_to s (ch_h ch) (TBit (mkTrack ch m meta_default true))) /\ res_free d'.
Proof.
  intros f m d s ch Em Hwf [Hm Hr] Hh Hlen. unfold add_step, add_empty_track.
  destruct (N.leb_spec 2 (ch_h ch)); [lia|].
  assert (Hrej : res_rejects d RBitStream = false) by (unfold res_rejects; rewrite Hm; destruct Hr as [-> | ->]; reflexivity). rewrite Hrej.
  assert (Hins : res_insert RBitStream (di_res d) = [RBitStream]) by (destruct Hr as [-> | ->]; reflexivity).
  cbn [di_res with_res]. rewrite Hins.
  assert (Hmap : exists mp, head_map (with_res d [RBitStream]) (ch_h ch) = Ok mp /\ length mp = N.to_nat (ch_c ch)).
  { destruct Hwf as [_ [H0 H1]]. apply map_some_len in H0. apply map_some_len in H1.
    assert (E : ch_h ch = 0%N \/ ch_h ch = 1%N) by lia. destruct E as [E|E]; rewrite E in *; cbn [head_map side] in *; eexists; (split; [reflexivity|]); cbn; congruence. }
  destruct Hmap as (mp & -> & Hl). rewrite Hl, Nat.eqb_refl. cbn [negb res_min res_mem existsb res_eqb res_num Nat.eqb orb]. rewrite Em. cbn [omap obind].
  eexists. split; [reflexivity|]. split; [apply push_wf; [apply with_res_wf; exact Hwf|exact Hh]|].
  unfold push_track, res_free. cbn. auto.
Qed.
Lemma add_head : forall f m h, mfm_new (empty_bits (N.to_nat (sf_bitcell_ct f)) (Some false)) None None = Ok m -> (h < 2)%N ->
  forall n d s, wf d s -> res_free d -> side s h = [] ->
  exists d', sfold (add_step f) (map (fun c => mkCh c h) (Nseq (N.of_nat n))) d = (d', Ok tt) /\ res_free d' /\
    wf d' (set_side s h (map (fun c => TBit (mkTrack (mkCh c h) m meta_default true)) (Nseq (N.of_nat n)))).
Proof.
  intros f m h Em Hh. induction n as [|n IH]; intros d s Hwf Hr Hs.
  - exists d. split; [reflexivity|]. split; [exact Hr|]. change (Nseq (N.of_nat 0)) with (@nil N). cbn [map].
    assert (E : h = 0%N \/ h = 1%N) by lia. destruct s as [s0 s1]. destruct E as [-> | ->]; cbn in *; subst; exact Hwf.
  - destruct (IH d s Hwf Hr Hs) as (d1 & E1 & Hr1 & W1). rewrite Nseq_S, !map_app. rewrite (sfold_app _ _ _ _ _ E1). cbn [map sfold].
    destruct (add_one f m d1 _ (mkCh (N.of_nat n) h) Em W1 Hr1 Hh) as (d2 & E2 & W2 & Hr2).
    { cbn [ch_h ch_c]. assert (E : h = 0%N \/ h = 1%N) by lia. destruct E as [-> | ->]; cbn [side set_side fst snd]; rewrite map_length, Nseq_length; reflexivity. }
    rewrite E2. exists d2. split; [reflexivity|]. split; [exact Hr2|].
    assert (E : h = 0%N \/ h = 1%N) by lia. destruct E as [-> | ->]; exact W2.
Qed.

(* ---- analysing ---- *)
Lemma analyze_ok : forall d s, wf d s -> (forall t, In t (fst s) \/ In t (snd s) -> tk_analysis t <> Panic) -> exists d', di_analyze d = Ok d'.
Proof.
  intros d s Hwf Ht. unfold di_analyze.
  assert (H : forall tis a, (forall ti, In ti tis -> exists t, nth_error (di_pool d) ti = Some t /\ tk_analysis t <> Panic) ->
              exists a', ofold (acc_step (di_pool d)) tis a = Ok a').
  { induction tis as [|ti tis IH]; intros a H; [eexists; reflexivity|]. cbn [ofold]. destruct (H ti (or_introl eq_refl)) as (t & En & Hp).
    unfold acc_step at 1, oindex. rewrite En. cbn [obind]. destruct (tk_analysis t) as [ta|e|]; [| |congruence];
      cbn [obind]; apply IH; intros; apply H; right; auto. }
  edestruct H as (a' & ->).
  - intros ti Hi. apply iter_in in Hi. destruct Hwf as [[_ Hr] [H0 H1]]. specialize (Hr _ Hi).
    apply in_app_or in Hi as [Hi|Hi]; apply In_nth_error in Hi as [k Hk].
    + pose proof (map_some_nth _ _ _ k H0) as E. rewrite Hk in E. destruct (nth_error (di_pool d) ti) as [t|] eqn:Et; [|apply nth_error_None in Et; lia].
      exists t. split; [reflexivity|]. apply Ht. left. eapply nth_error_In; eauto.
    + pose proof (map_some_nth _ _ _ k H1) as E. rewrite Hk in E. destruct (nth_error (di_pool d) ti) as [t|] eqn:Et; [|apply nth_error_None in Et; lia].
      exists t. split; [reflexivity|]. apply Ht. right. eapply nth_error_In; eauto.
  - cbn [obind]. eexists. reflexivity.
Qed.
Lemma wf_seek : forall d s ch t, wf d s -> (ch_h ch < 2)%N -> nth_error (side s (ch_h ch)) (N.to_nat (ch_c ch)) = Some t ->
  exists ti, seek_track d ch = Ok (ti, t).
Proof.
  intros d s ch t Hwf Hh Hn. pose proof Hwf as [[_ Hr] [H0 H1]]. unfold seek_track. destruct (N.ltb_spec 1 (ch_h ch)); [lia|].
  assert (E : ch_h ch = 0%N \/ ch_h ch = 1%N) by lia. destruct E as [E|E]; rewrite E in *; cbn [head_map obind side] in *.
  - pose proof (map_some_nth _ _ _ (N.to_nat (ch_c ch)) H0) as M. rewrite Hn in M.
    destruct (nth_error (di_map0 d) (N.to_nat (ch_c ch))) as [ti|] eqn:Em; [|discriminate].
    assert (N.to_nat (ch_c ch) < length (di_map0 d)) by (apply nth_error_Some; congruence).
    destruct (Nat.leb_spec (length (di_map0 d)) (N.to_nat (ch_c ch))); [lia|]. unfold oindex. rewrite Em. cbn [obind]. rewrite M. cbn [obind]. eauto.
  - pose proof (map_some_nth _ _ _ (N.to_nat (ch_c ch)) H1) as M. rewrite Hn in M.
    destruct (nth_error (di_map1 d) (N.to_nat (ch_c ch))) as [ti|] eqn:Em; [|discriminate].
    assert (N.to_nat (ch_c ch) < length (di_map1 d)) by (apply nth_error_Some; congruence).
    destruct (Nat.leb_spec (length (di_map1 d)) (N.to_nat (ch_c ch))); [lia|]. unfold oindex. rewrite Em. cbn [obind]. rewrite M. cbn [obind]. eauto.
Qed.
Lemma wf_seek_none : forall d s ch, wf d s -> nth_error (side s (ch_h ch)) (N.to_nat (ch_c ch)) = None -> seek_track d ch = Err SeekError.
Proof.
  intros d s ch Hwf Hn. pose proof Hwf as [_ [H0 H1]]. unfold seek_track. destruct (N.ltb_spec 1 (ch_h ch)); [reflexivity|].
  apply nth_error_None in Hn. apply map_some_len in H0. apply map_some_len in H1.
  assert (E : ch_h ch = 0%N \/ ch_h ch = 1%N) by lia. destruct E as [E|E]; rewrite E in *; cbn [head_map obind side] in *.
  - destruct (Nat.leb_spec (length (di_map0 d)) (N.to_nat (ch_c ch))); [reflexivity|lia].
  - destruct (Nat.leb_spec (length (di_map1 d)) (N.to_nat (ch_c ch))); [reflexivity|lia].
Qed.

(* ---- formatting every track ---- *)
Definition ready (f : StandardFormat) (ch : DiskCh) (t : BitTrack) : Prop :=
  formattable t /\ bt_schema t = true /\ bt_ch t = ch /\ mfm_len (bt_data t) = N.to_nat (sf_bitcell_ct f) /\ bt_meta t = meta_default.
Definition nice (f : StandardFormat) (ch : DiskCh) (t : DTrack) : Prop :=
  exists b, t = TBit b /\ (ready f ch b \/ fmt_track f ch (fun _ => zeros) b).
Definition done_track (f : StandardFormat) (ch : DiskCh) (t : DTrack) : Prop := exists b, t = TBit b /\ fmt_track f ch (fun _ => zeros) b.
Lemma nice_analysis : forall f ch t, is_pc f -> nice f ch t -> tk_analysis t <> Panic.
Proof.
  intros f ch t Hpc (b & -> & [(_ & Hs & _ & _ & Hm) | Hf]); cbn [tk_analysis].
  - unfold bt_analysis. rewrite Hs, Hm. discriminate.
  - destruct (fmt_analysis f ch _ b Hpc Hf) as (a & E & _). rewrite E. discriminate.
Qed.
Lemma side_in : forall F C H t, (H = 1 \/ H = 2)%N -> In t (fst (tab F C H)) \/ In t (snd (tab F C H)) ->
  exists h c, (h < H)%N /\ (c < C)%N /\ t = F h c.
Proof.
  intros F C H t HH Hi. unfold tab in Hi. cbn [fst snd] in Hi. destruct Hi as [Hi|Hi].
  - apply in_map_iff in Hi as (c & <- & Hc). apply in_Nseq in Hc. exists 0%N, c. repeat split; try lia.
  - destruct HH as [-> | ->]; [destruct Hi|]. change (2 <? 2)%N with false in Hi. cbn iota in Hi.
    apply in_map_iff in Hi as (c & <- & Hc). apply in_Nseq in Hc. exists 1%N, c. repeat split; try lia.
Qed.
Definition fmt_step (rnd : Rnd) (f : StandardFormat) (d : DiskImage) (ch : DiskCh) : DiskImage * outcome unit :=
  keeps d (di_format_track rnd d ch (format_ids f ch) [0%N] (N.to_nat (sf_gap3 f))).
Definition lc f := l_c (sf_layout f).
Definition lh f := l_h (sf_layout f).
Lemma lh_12 : forall f, lh f = 1%N \/ lh f = 2%N.
Proof. intros []; cbn; auto. Qed.
Lemma format_step : forall rnd f d F c h b, is_pc f -> wf d (tab F (lc f) (lh f)) ->
  (forall h c, (h < lh f)%N -> (c < lc f)%N -> nice f (mkCh c h) (F h c)) -> (c < lc f)%N -> (h < lh f)%N ->
  F h c = TBit b -> ready f (mkCh c h) b ->
  exists d0 d' t, fmt_step rnd f d (mkCh c h) = (d', Ok tt) /\ done_track f (mkCh c h) t /\ di_analyze d0 = Ok d' /\
    let F' := fun h' c' => if (h' =? h)%N && (c' =? c)%N then t else F h' c' in
    wf d0 (tab F' (lc f) (lh f)) /\ wf d' (tab F' (lc f) (lh f)) /\ (forall h c, (h < lh f)%N -> (c < lc f)%N -> nice f (mkCh c h) (F' h c)).
Proof.
  intros rnd f d F c h b Hpc Hwf Hn Hc Hh Hb (R1 & R2 & R3 & R4 & R5).
  destruct (format_one (rnd_bit rnd) f (mkCh c h) b Hpc Hc Hh R1 R2 R3 R4) as (b' & Ef & Hd).
  assert (H2 : (h < 2)%N) by (destruct (lh_12 f); unfold lh in *; lia).
  destruct (wf_seek d _ (mkCh c h) (TBit b) Hwf H2) as (ti & Es).
  { cbn [ch_h ch_c]. rewrite side_tab by apply lh_12. destruct (N.ltb_spec c (lc f)); [|lia]. destruct (N.ltb_spec h (lh f)); [|lia]. cbn [andb]. congruence. }
  pose proof (replace_wf d _ (mkCh c h) ti (TBit b) (TBit b') Hwf Es) as Hwf'.
  rewrite replace_tab in Hwf' by (auto; apply lh_12).
  set (F' := fun h' c' : N => if (h' =? h)%N && (c' =? c)%N then TBit b' else F h' c') in *.
  assert (Hn' : forall h c, (h < lh f)%N -> (c < lc f)%N -> nice f (mkCh c h) (F' h c)).
  { intros h' c' A B. unfold F'. destruct (N.eqb_spec h' h) as [->|]; cbn [andb]; [|auto]. destruct (N.eqb_spec c' c) as [->|]; [|auto].
    exists b'. auto. }
  destruct (analyze_ok _ _ Hwf') as (d' & Ea).
  { intros t Hi. apply side_in in Hi as (h' & c' & A & B & ->); [|apply lh_12]. eapply nice_analysis; eauto. }
  exists (with_pool d (upd (di_pool d) ti (TBit b'))), d', (TBit b'). split.
  { unfold fmt_step, di_format_track. rewrite Es. cbn [obind tk_format]. rewrite Ef. cbn [obind]. rewrite Ea. reflexivity. }
  split; [exists b'; auto|]. split; [exact Ea|]. split; [exact Hwf'|]. split; [|exact Hn'].
  destruct (analyze_same _ _ Ea) as (P & M0 & M1 & _). eapply wf_ext; [..|exact Hwf']; auto.
Qed.
Lemma format_all : forall rnd f, is_pc f -> forall todo d F, NoDup todo ->
  (forall ch, In ch todo -> (ch_c ch < lc f)%N /\ (ch_h ch < lh f)%N /\ exists b, F (ch_h ch) (ch_c ch) = TBit b /\ ready f ch b) ->
  (forall h c, (h < lh f)%N -> (c < lc f)%N -> nice f (mkCh c h) (F h c)) ->
  (forall h c, (h < lh f)%N -> (c < lc f)%N -> ~ In (mkCh c h) todo -> done_track f (mkCh c h) (F h c)) ->
  wf d (tab F (lc f) (lh f)) -> todo <> [] ->
  exists d0 d' F', sfold (fmt_step rnd f) todo d = (d', Ok tt) /\ di_analyze d0 = Ok d' /\
    wf d0 (tab F' (lc f) (lh f)) /\ wf d' (tab F' (lc f) (lh f)) /\
    (forall h c, (h < lh f)%N -> (c < lc f)%N -> done_track f (mkCh c h) (F' h c)).
Proof.
  intros rnd f Hpc. induction todo as [|[c h] todo IH]; intros d F Hnd Ht Hn Hdone Hwf Hne; [congruence|].
  inversion Hnd as [|? ? Hnot Hnd']; subst.
  destruct (Ht _ (or_introl eq_refl)) as (Hc & Hh & b & Hb & Hr). cbn [ch_c ch_h] in Hc, Hh, Hb.
  destruct (format_step rnd f d F c h b Hpc Hwf Hn Hc Hh Hb Hr) as (d0 & d1 & t & Es & Hdt & Ea & Hwf0 & Hwf1 & Hn1).
  set (F1 := fun h' c' : N => if (h' =? h)%N && (c' =? c)%N then t else F h' c') in *.
  assert (Hdone1 : forall h' c', (h' < lh f)%N -> (c' < lc f)%N -> ~ In (mkCh c' h') todo -> done_track f (mkCh c' h') (F1 h' c')).
  { intros h' c' A B Hi. unfold F1. destruct (N.eqb_spec h' h) as [->|Hx]; cbn [andb].
    - destruct (N.eqb_spec c' c) as [->|Hx]; [exact Hdt|]. apply Hdone; auto. intros [E|E]; [|auto]. congruence.
    - apply Hdone; auto. intros [E|E]; [|auto]. congruence. }
  cbn [sfold]. rewrite Es. destruct todo as [|ch2 todo2].
  - exists d0, d1, F1. repeat (split; [first [reflexivity|assumption]|]). intros h' c' A B. apply Hdone1; auto.
  - apply (IH d1 F1); auto; [|discriminate].
    intros [c2 h2] Hi. destruct (Ht _ (or_intror Hi)) as (Hc2 & Hh2 & b2 & Hb2 & Hr2). split; [exact Hc2|]. split; [exact Hh2|].
    exists b2. split; [|exact Hr2]. unfold F1. cbn [ch_c ch_h] in *. destruct (N.eqb_spec h2 h) as [->|]; cbn [andb]; [|auto].
    destruct (N.eqb_spec c2 c) as [->|]; [|auto]. contradiction.
Qed.
Lemma heads_in : forall g ch, In ch (heads_cylinders g) <-> (ch_c ch < l_c g)%N /\ (ch_h ch < l_h g)%N.
Proof.
  intros g [c h]. unfold heads_cylinders. rewrite in_flat_map. cbn [ch_c ch_h]. split.
  - intros (h' & Hh & Hi). apply in_map_iff in Hi as (c' & E & Hc). injection E as <- <-. apply in_Nseq in Hh. apply in_Nseq in Hc. lia.
  - intros [A B]. exists h. split; [apply in_Nseq; exact B|]. apply in_map_iff. exists c. split; [reflexivity|apply in_Nseq; exact A].
Qed.
Lemma heads_nodup : forall g, NoDup (heads_cylinders g).
Proof.
  intros g. unfold heads_cylinders. pose proof (NoDup_Nseq (l_h g)) as Hn. induction Hn as [|h l Hh Hl IH]; [constructor|]. cbn [flat_map].
  apply NoDup_app_intro; [|exact IH|].
  - apply FinFun.Injective_map_NoDup; [intros x y E; congruence|apply NoDup_Nseq].
  - intros x Hx Hy. apply in_map_iff in Hx as (c & <- & _). apply in_flat_map in Hy as (h' & Hh' & Hi). apply in_map_iff in Hi as (c' & E & _). congruence.
Qed.
