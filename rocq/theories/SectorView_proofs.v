(* SectorView_proofs.v *)
From Coq Require Import List.
From Verif Require Import Base Base_lemmas Chs_model Chs_spec Chs_proofs Types_model DiskImage_model Format_model Format_spec Format_proofs SectorView_model SectorView_spec.
Import ListNotations.
Local Open Scope N_scope.

Definition total (f : StandardFormat) : N := l_c (sf_layout f) * l_h (sf_layout f) * l_s (sf_layout f).
Lemma pc_layout : forall f, is_pc f -> layout_ok (sf_layout f) /\ l_s_off (sf_layout f) = 1 /\ l_size (sf_layout f) = 512 /\
  sf_disk_size f = total f * 512 /\ total_sectors (sf_layout f) = total f /\ 0 < total f /\ bytes_to_n (l_size (sf_layout f)) = 2.
Proof. intros f [A B]. destruct f; try congruence; unfold layout_ok; vm_compute; repeat split; try reflexivity; discriminate. Qed.
Lemma sector_no_lba : forall f c h s, is_pc f -> 1 <= s -> to_lba (mkChs c h s) (sf_layout f) = sector_no f c h s.
Proof. intros f c h s Hf Hs. destruct (pc_layout f Hf) as (_ & E & _). unfold to_lba, sector_no. rewrite E. reflexivity. Qed.
Lemma in_on_disk : forall f c h s, is_pc f -> (in_layout f c h s <-> on_disk (sf_layout f) (mkChs c h s)).
Proof.
  intros f c h s Hf. destruct (pc_layout f Hf) as (_ & E & _). unfold in_layout, on_disk. rewrite E. cbn [chs_c chs_h chs_s]. lia.
Qed.
Lemma sector_no_lt : forall f c h s, is_pc f -> in_layout f c h s -> sector_no f c h s < total f.
Proof. intros f c h s [A B] (H1 & H2 & H3). destruct f; try congruence; cbn in *; unfold sector_no, total; cbn; lia. Qed.
Lemma seek_spec : forall f t, is_pc f -> t < sf_disk_size f -> exists c h s, in_layout f c h s /\ sector_no f c h s = t / 512 /\
  from_raw_offset t (sf_layout f) = Ok (Some (mkChs c h s, t mod 512)).
Proof.
  intros f t Hf Ht. destruct (pc_layout f Hf) as (L & O & Z & D & T & _).
  destruct (raw_offset_decompose (sf_layout f) t L) as ([c h s] & E1 & E2 & E3 & E4); [lia|lia|rewrite T, Z, <- D; exact Ht|].
  rewrite Z in *. exists c, h, s. assert (Hin := proj2 (in_on_disk f c h s Hf) E2). split; [exact Hin|]. split; [|exact E1].
  unfold to_raw_offset in E3. destruct (layout_contains _ _); [|discriminate]. rewrite sector_no_lba, Z in E3 by (auto; apply Hin).
  injection E3 as E3. clear - E3. assert (t mod 512 <= t) by (apply N.mod_le; discriminate).
  pose proof (N.div_mod t 512 ltac:(discriminate)). lia.
Qed.
Lemma seek_end : forall f t, is_pc f -> sf_disk_size f <= t -> from_raw_offset t (sf_layout f) = Ok None.
Proof.
  intros f t Hf Ht. destruct (pc_layout f Hf) as (L & O & Z & D & T & _). apply raw_offset_out; [exact L|rewrite Z; reflexivity|rewrite T, Z, <- D; exact Ht].
Qed.
Lemma offset_of : forall f c h s, is_pc f -> in_layout f c h s -> to_raw_offset (mkChs c h s) (sf_layout f) = Some (sector_no f c h s * 512).
Proof.
  intros f c h s Hf Hin. destruct (pc_layout f Hf) as (L & O & Z & D & T & _).
  destruct (raw_offset_compose (sf_layout f) (mkChs c h s) L) as (o & E & Eo & _); [lia|lia|apply in_on_disk; auto|].
  rewrite E, Eo, Z, sector_no_lba by (auto; apply Hin). reflexivity.
Qed.
Lemma sector_no_inj : forall f c h s c' h' s', is_pc f -> in_layout f c h s -> in_layout f c' h' s' -> sector_no f c h s = sector_no f c' h' s' -> c = c' /\ h = h' /\ s = s'.
Proof.
  intros f c h s c' h' s' Hf H H' E. destruct (pc_layout f Hf) as (L & O & Z & D & T & _).
  destruct (raw_offset_compose (sf_layout f) (mkChs c h s) L) as (o & _ & Eo & F); [lia|lia|apply in_on_disk; auto|].
  destruct (raw_offset_compose (sf_layout f) (mkChs c' h' s') L) as (o' & _ & Eo' & F'); [lia|lia|apply in_on_disk; auto|].
  rewrite sector_no_lba in Eo by (auto; apply H). rewrite sector_no_lba in Eo' by (auto; apply H').
  assert (Q : o = o') by congruence. specialize (F 0 ltac:(lia)). specialize (F' 0 ltac:(lia)). rewrite <- Q in F'. rewrite F in F'. injection F' as Q1 Q2 Q3. auto.
Qed.
(* moving to the next sector *)
Lemma next_pos : forall f c h s, is_pc f -> in_layout f c h s -> sector_no f c h s + 1 < total f ->
  exists c' h' s', in_layout f c' h' s' /\ sector_no f c' h' s' = sector_no f c h s + 1 /\
    (if l_s (sf_layout f) <? s + 1 then s' = 1 /\ seek_next_track (mkCh c h) (sf_ch f) = (mkCh c' h', true) else c' = c /\ h' = h /\ s' = s + 1).
Proof.
  intros f c h s Hf (Hc & Hh & Hs) Hk. destruct (N.ltb_spec (l_s (sf_layout f)) (s + 1)) as [Hw|Hw].
  - assert (s = l_s (sf_layout f)) by lia. subst s. destruct (N.eq_dec (h + 1) (l_h (sf_layout f))) as [Eh|Eh].
    + exists (c + 1), 0, 1. unfold in_layout, sector_no, seek_next_track, next_track, sf_ch in *. cbn [ch_c ch_h].
      destruct Hf as [A B]. destruct f; try congruence; cbn in *; unfold total in Hk; cbn in Hk;
        (split; [lia|]); (split; [lia|]); (split; [reflexivity|]);
        repeat match goal with |- context [?a =? ?b] => destruct (N.eqb_spec a b); try lia | |- context [?a <=? ?b] => destruct (N.leb_spec a b); try lia | |- context [?a <? ?b] => destruct (N.ltb_spec a b); try lia end;
        cbn [andb orb]; try reflexivity; try lia.
    + exists c, (h + 1), 1. unfold in_layout, sector_no, seek_next_track, next_track, sf_ch in *. cbn [ch_c ch_h].
      destruct Hf as [A B]. destruct f; try congruence; cbn in *; unfold total in Hk; cbn in Hk;
        (split; [lia|]); (split; [lia|]); (split; [reflexivity|]);
        repeat match goal with |- context [?a =? ?b] => destruct (N.eqb_spec a b); try lia | |- context [?a <=? ?b] => destruct (N.leb_spec a b); try lia | |- context [?a <? ?b] => destruct (N.ltb_spec a b); try lia end;
        cbn [andb orb]; try reflexivity; try lia.
  - exists c, h, (s + 1). unfold in_layout, sector_no. repeat split; lia.
Qed.
Lemma last_pos : forall f c h s, is_pc f -> in_layout f c h s -> sector_no f c h s + 1 = total f ->
  l_s (sf_layout f) < s + 1 /\ seek_next_track (mkCh c h) (sf_ch f) = (mkCh c h, false) /\ in_layout f c h 1 /\ sector_no f c h 1 = last_track f.
Proof.
  intros f c h s Hf (Hc & Hh & Hs) Hk. unfold in_layout, sector_no, seek_next_track, next_track, sf_ch, last_track in *. cbn [ch_c ch_h].
  destruct Hf as [A B]. destruct f; try congruence; cbn in *; unfold total in Hk; cbn in Hk;
    (split; [lia|]); (split; [|lia]);
    repeat match goal with |- context [?a =? ?b] => destruct (N.eqb_spec a b); try lia | |- context [?a <=? ?b] => destruct (N.leb_spec a b); try lia | |- context [?a <? ?b] => destruct (N.ltb_spec a b); try lia end;
    cbn [andb orb]; try reflexivity; try lia.
Qed.

(* ---- blocks of the flat file ---- *)
Lemma sector_at_length : forall flat k T, N.of_nat (length flat) = T * 512 -> k < T -> length (sector_at flat k) = 512%nat.
Proof. intros flat k T HL Hk. unfold sector_at. apply slice_length. lia. Qed.
Lemma sector_at_bytes : forall flat k, bytes_ok flat = true -> bytes_ok (sector_at flat k) = true.
Proof. intros. apply bytes_ok_slice. assumption. Qed.
Lemma sector_at_splice_same : forall flat k T data, N.of_nat (length flat) = T * 512 -> k < T -> length data = 512%nat ->
  sector_at (splice flat (N.to_nat (k * 512)) data) k = data.
Proof. intros flat k T data HL Hk Hd. unfold sector_at. rewrite <- Hd at 1. apply slice_splice_same. lia. Qed.
Lemma nth_slice_gen : forall (l : list N) o k i, nth_error (slice l o k) i = if (i <? k)%nat then nth_error l (o + i) else None.
Proof. intros. unfold slice. rewrite nth_error_firstn, nth_error_skipn. reflexivity. Qed.
Lemma sector_at_splice_other : forall flat k j T data, N.of_nat (length flat) = T * 512 -> k < T -> length data = 512%nat -> j <> k ->
  sector_at (splice flat (N.to_nat (k * 512)) data) j = sector_at flat j.
Proof.
  intros flat k j T data HL Hk Hd Hj. unfold sector_at. apply list_eq_nth_error. intros i. rewrite !nth_slice_gen.
  destruct (Nat.ltb_spec i 512); [|reflexivity]. rewrite nth_error_splice by lia.
  destruct (Nat.leb_spec (N.to_nat (k * 512)) (N.to_nat (j * 512) + i)); [|reflexivity].
  destruct (Nat.ltb_spec (N.to_nat (j * 512) + i) (N.to_nat (k * 512) + length data)); [|reflexivity]. lia.
Qed.
Lemma splice_sector : forall flat k T p b, N.of_nat (length flat) = T * 512 -> k < T -> (k * 512 <= p) -> p + N.of_nat (length b) <= (k + 1) * 512 ->
  splice flat (N.to_nat p) b = splice flat (N.to_nat (k * 512)) (splice (sector_at flat k) (N.to_nat (p - k * 512)) b).
Proof.
  intros flat k T p b HL Hk H1 H2. pose proof (sector_at_length flat k T HL Hk) as Hs.
  apply list_eq_nth_error. intros i. rewrite !nth_error_splice; rewrite ?splice_length; try lia.
  unfold sector_at. rewrite nth_slice_gen. fold (sector_at flat k). rewrite Hs.
  destruct (Nat.leb_spec (N.to_nat (k * 512)) i); destruct (Nat.ltb_spec i (N.to_nat (k * 512) + 512)); cbn [andb].
  - destruct (Nat.leb_spec (N.to_nat p) i); destruct (Nat.leb_spec (N.to_nat (p - k * 512)) (i - N.to_nat (k * 512)));
    destruct (Nat.ltb_spec i (N.to_nat p + length b)); destruct (Nat.ltb_spec (i - N.to_nat (k * 512)) (N.to_nat (p - k * 512) + length b)); cbn [andb]; try lia.
    all: try (f_equal; lia). all: destruct (Nat.ltb_spec (i - N.to_nat (k * 512)) 512); [|lia]; f_equal; lia.
  - destruct (Nat.leb_spec (N.to_nat p) i); [|reflexivity]. destruct (Nat.ltb_spec i (N.to_nat p + length b)); [lia|reflexivity].
  - destruct (Nat.leb_spec (N.to_nat p) i); [lia|reflexivity].
  - destruct (Nat.leb_spec (N.to_nat p) i); [lia|reflexivity].
Qed.
Lemma splice_bytes_ok : forall (l d : list N) i, bytes_ok l = true -> bytes_ok d = true -> bytes_ok (splice l i d) = true.
Proof.
  intros l d i Hl Hd. unfold splice. rewrite !bytes_ok_app, Hd. rewrite (bytes_ok_slice l 0 i Hl : bytes_ok (firstn i l) = true). cbn [andb].
  match goal with |- bytes_ok (skipn ?n ?l) = true => replace (skipn n l) with (slice l n (length l)) end; [apply bytes_ok_slice, Hl|].
  unfold slice. apply firstn_all2. rewrite skipn_length. lia.
Qed.
Lemma splice_twice : forall (l a b : list N) i, (i + length a <= length l)%nat -> length a = length b -> splice (splice l i a) i b = splice l i b.
Proof.
  intros l a b i H E. apply list_eq_nth_error. intros j. rewrite !nth_error_splice; rewrite ?splice_length; try lia.
  rewrite E. destruct ((i <=? j) && (j <? i + length b))%nat eqn:Ej; reflexivity.
Qed.
Lemma splice_own : forall (l : list N) i n, (i + n <= length l)%nat -> splice l i (slice l i n) = l.
Proof.
  intros l i n H. apply list_eq_nth_error. intros j. rewrite nth_error_splice; rewrite slice_length; try lia. rewrite nth_slice_gen.
  destruct (Nat.leb_spec i j); destruct (Nat.ltb_spec j (i + n)); cbn [andb]; try reflexivity. destruct (Nat.ltb_spec (j - i) n); [|lia]. f_equal. lia.
Qed.

Lemma slice_cons : forall (l : list N) i n b, nth_error l i = Some b -> slice l i (S n) = b :: slice l (S i) n.
Proof.
  intros l i n b H. unfold slice. revert l H. induction i as [|i IH]; intros [|x l] H; try discriminate; cbn [nth_error] in H.
  - injection H as ->. reflexivity.
  - exact (IH l H).
Qed.

Lemma splice_cons : forall (l : list N) p b t, p + N.of_nat (S (length t)) <= N.of_nat (length l) ->
  splice (splice l (N.to_nat p) [b]) (N.to_nat (p + 1)) t = splice l (N.to_nat p) (b :: t).
Proof.
  intros l p b t H. apply list_eq_nth_error. intros i. rewrite !nth_error_splice; rewrite ?splice_length; cbn [length]; try lia.
  destruct (Nat.leb_spec (N.to_nat (p + 1)) i); destruct (Nat.leb_spec (N.to_nat p) i); cbn [andb]; try lia; try reflexivity.
  - destruct (Nat.ltb_spec i (N.to_nat (p + 1) + length t)); destruct (Nat.ltb_spec i (N.to_nat p + S (length t))); try lia.
    + replace (i - N.to_nat p)%nat with (S (i - N.to_nat (p + 1))) by lia. reflexivity.
    + destruct (Nat.ltb_spec i (N.to_nat p + 1)); [lia|reflexivity].
  - assert (i = N.to_nat p) by lia. subst i. destruct (Nat.ltb_spec (N.to_nat p) (N.to_nat p + 1)); [|lia].
    destruct (Nat.ltb_spec (N.to_nat p) (N.to_nat p + S (length t))); [|lia]. rewrite Nat.sub_diag. reflexivity.
Qed.

(* ---- the view ---- *)
Section Store.
Variable f : StandardFormat.
Variable P : DiskImage -> list N -> Prop.
Hypothesis Hf : is_pc f.
Variable W : Prop.
Hypothesis HP : forall d flat, P d flat -> holds d f flat /\ (W ->
    forall c h s data, in_layout f c h s -> length data = 512%nat -> bytes_ok data = true ->
      exists d', di_write_sector_basic d (mkCh c h) (sector_query c h s) None data = (d', Ok tt) /\
        P d' (splice flat (N.to_nat (sector_no f c h s * 512)) data)).

Lemma fit_same : forall n l, length l = n -> fit n l = l.
Proof. intros n l H. unfold fit. rewrite firstn_app, <- H, firstn_all, Nat.sub_diag. cbn. apply app_nil_r. Qed.
Lemma len_flat : forall d flat, P d flat -> N.of_nat (length flat) = total f * 512.
Proof. intros d flat H. destruct (HP _ _ H) as [[E _] _]. destruct (pc_layout f Hf) as (_ & _ & _ & D & _). congruence. Qed.
Lemma read_sector_ok : forall rnd d flat v c h s, P d flat -> v_disk v = d -> v_fmt v = f -> v_ch v = mkCh c h -> in_layout f c h s ->
  v_read_sector rnd v s = (mkView d f (mkCh c h) s (sector_at flat (sector_no f c h s)) false 0 false, Ok tt).
Proof.
  intros rnd d flat v c h s Hp Hd Hv Hch Hin. destruct v as [vd vf vch vs vb vdi vby ve]. cbn [v_disk v_fmt v_ch] in *. subst vd vf vch.
  unfold v_read_sector, v_query, v_layout. cbn [v_with_cursor v_with_byte v_disk v_fmt v_ch v_sid ch_c ch_h].
  destruct (pc_layout f Hf) as (_ & _ & Z & _ & _ & _ & B). rewrite B, Z.
  destruct (HP _ _ Hp) as [[_ Hr] _]. unfold sector_query in Hr. rewrite (Hr c h s Hin rnd). rewrite fit_same; [reflexivity|].
  apply (sector_at_length flat _ (total f)); [eapply len_flat; eauto|]. apply sector_no_lt; auto.
Qed.
Lemma commit_ok : forall d flat v c h s, W -> P d flat -> v_disk v = d -> v_fmt v = f -> v_ch v = mkCh c h -> v_sid v = s -> in_layout f c h s ->
  v_dirty v = true -> length (v_buf v) = 512%nat -> bytes_ok (v_buf v) = true ->
  exists d', v_commit v = (mkView d' f (mkCh c h) s (v_buf v) false (v_byte v) (v_eod v), Ok tt) /\ P d' (splice flat (N.to_nat (sector_no f c h s * 512)) (v_buf v)).
Proof.
  intros d flat v c h s HW Hp Hd Hv Hch Hs Hin Hdir Hl Hb. unfold v_commit, v_query, v_layout. rewrite Hdir, Hd, Hv, Hch, Hs. cbn [ch_c ch_h].
  destruct (pc_layout f Hf) as (_ & _ & Z & _ & _ & _ & B). rewrite B. destruct (HP _ _ Hp) as [_ Hw]. specialize (Hw HW).
  destruct (Hw c h s (v_buf v) Hin Hl Hb) as (d' & E & Hp'). unfold sector_query in E. rewrite E. exists d'. auto.
Qed.
Lemma commit_clean : forall v, v_dirty v = false -> v_commit v = (v, Ok tt).
Proof. intros v H. unfold v_commit. rewrite H. reflexivity. Qed.

(* the view shows sector k of the flat file fl, the disk holds fd *)
Record at_pos (v : View) (fl : list N) (p : N) (dirty : option N) : Prop := {
  ap_fmt : v_fmt v = f; ap_eod : v_eod v = false; ap_bytes : bytes_ok fl = true; ap_len : N.of_nat (length fl) = total f * 512;
  ap_sec : exists c h s k fd, v_ch v = mkCh c h /\ v_sid v = s /\ in_layout f c h s /\ sector_no f c h s = k /\ P (v_disk v) fd /\
    p = k * 512 + v_byte v /\ v_byte v <= 512 /\ v_buf v = sector_at fl k /\
    match dirty with None => v_dirty v = false /\ fd = fl | Some k' => k' = k /\ v_dirty v = true /\ fl = splice fd (N.to_nat (k * 512)) (v_buf v) /\ length fd = length fl end }.
Record at_end (v : View) (fl : list N) : Prop := {
  ae_fmt : v_fmt v = f; ae_eod : v_eod v = true; ae_bytes : bytes_ok fl = true; ae_len : N.of_nat (length fl) = total f * 512;
  ae_disk : P (v_disk v) fl; ae_dirty : v_dirty v = false; ae_byte : v_byte v = 512;
  ae_sec : exists c h, v_ch v = mkCh c h /\ v_sid v = 1 /\ in_layout f c h 1 /\ sector_no f c h 1 = last_track f }.

Lemma new_ok : forall rnd d flat, P d flat -> bytes_ok flat = true -> exists v, v_new rnd d f = Ok v /\ at_pos v flat 0 None.
Proof.
  intros rnd d flat Hp Hb. unfold v_new.
  assert (Hin : in_layout f 0 0 1) by (destruct Hf as [A B]; destruct f; try congruence; vm_compute; repeat split; discriminate).
  rewrite (read_sector_ok rnd d flat (mkView d f (mkCh 0 0) 1 (repeat 0 (N.to_nat (sf_sector_size f))) false 0 false) 0 0 1 Hp eq_refl eq_refl eq_refl Hin). eexists. split; [reflexivity|].
  assert (E : sector_no f 0 0 1 = 0) by (unfold sector_no; lia).
  constructor; cbn [v_fmt v_eod]; auto; [eapply len_flat; eauto|].
  exists 0, 0, 1, 0, flat. cbn [v_ch v_sid v_disk v_byte v_buf v_dirty]. rewrite E. repeat split; auto; try apply Hin; lia.
Qed.

(* one step of filling the buffer, clean *)
Lemma fill_clean : forall rnd v fl p, at_pos v fl p None -> p < total f * 512 ->
  exists v', v_fill rnd v = (v', Ok tt) /\ at_pos v' fl p None /\ v_byte v' < 512.
Proof.
  intros rnd v fl p H Hp. pose proof H as [Efmt Eeod Eb El (c & h & s & k & fd & Hch & Hsid & Hin & Hk & HPd & Epos & Hle & Hbuf & Hcl & ->)].
  assert (Hlen : length (v_buf v) = 512%nat).
  { rewrite Hbuf. apply (sector_at_length fl k (total f) El). rewrite <- Hk. apply sector_no_lt; auto. }
  unfold v_fill. rewrite Hlen. destruct (N.ltb_spec (v_byte v) (N.of_nat 512)) as [Hlt|Hge].
  - exists v. split; [reflexivity|]. split; [exact H|]. exact Hlt.
  - assert (v_byte v = 512) by lia. assert (Hnext : sector_no f c h s + 1 < total f) by (rewrite Hk; lia).
    destruct (next_pos f c h s Hf Hin Hnext) as (c' & h' & s' & Hin' & Hno & Hmv).
    unfold v_next_sector, v_layout. rewrite Efmt, Hsid, Hch.
    assert (R : forall w, v_disk w = v_disk v -> v_fmt w = f -> v_ch w = mkCh c' h' -> v_sid w = s' -> v_dirty w = false -> v_eod w = false ->
       exists v', match v_commit w with (v, Ok tt) => if v_eod v then (v, Ok tt) else v_read_sector rnd v (v_sid v) | r => r end = (v', Ok tt) /\ at_pos v' fl p None /\ v_byte v' < 512).
    { intros w W1 W2 W3 W4 W5 W6. rewrite commit_clean by exact W5. rewrite W6, W4.
      rewrite (read_sector_ok rnd (v_disk v) fl w c' h' s' HPd W1 W2 W3 Hin'). eexists. split; [reflexivity|]. split; [|cbn; lia].
      constructor; cbn [v_fmt v_eod]; auto. exists c', h', s', (k + 1), fl. cbn [v_ch v_sid v_disk v_byte v_buf v_dirty].
      rewrite Hno, Hk. repeat split; auto; try apply Hin'; lia. }
    destruct (N.ltb_spec (l_s (sf_layout f)) (s + 1)) as [Hw|Hw].
    + destruct Hmv as [-> Hsk]. rewrite Hsk. apply R; cbn; auto.
    + destruct Hmv as (-> & -> & ->). apply R; cbn; auto.
Qed.
Lemma fill_end : forall rnd v fl p, at_pos v fl p None -> p = total f * 512 -> exists v', v_fill rnd v = (v', Ok tt) /\ at_end v' fl.
Proof.
  intros rnd v fl p H Hp. pose proof H as [Efmt Eeod Eb El (c & h & s & k & fd & Hch & Hsid & Hin & Hk & HPd & Epos & Hle & Hbuf & Hcl & ->)].
  pose proof (sector_no_lt f c h s Hf Hin) as Hkt.
  assert (Hlen : length (v_buf v) = 512%nat) by (rewrite Hbuf; apply (sector_at_length fl k (total f) El); rewrite <- Hk; exact Hkt).
  assert (v_byte v = 512 /\ k + 1 = total f) as [Hb Hlast] by (clear - Hp Epos Hle Hk Hkt; lia).
  unfold v_fill. rewrite Hlen. destruct (N.ltb_spec (v_byte v) (N.of_nat 512)) as [Hlt|Hge]; [lia|].
  destruct (last_pos f c h s Hf Hin) as (L1 & L2 & L3 & L4); [rewrite Hk; exact Hlast|].
  unfold v_next_sector, v_layout. rewrite Efmt, Hsid, Hch. destruct (N.ltb_spec (l_s (sf_layout f)) (s + 1)) as [Hw|Hw]; [|lia].
  rewrite L2. rewrite commit_clean by exact Hcl. cbn [v_with_eod v_with_cursor v_eod negb]. eexists. split; [reflexivity|].
  constructor; cbn [v_with_eod v_with_cursor v_fmt v_eod v_disk v_dirty v_ch v_sid v_byte]; auto. exists c, h. auto.
Qed.
Lemma fill_inside : forall rnd v fl p dirty, at_pos v fl p dirty -> v_byte v < 512 -> v_fill rnd v = (v, Ok tt).
Proof.
  intros rnd v fl p dirty [Efmt Eeod Eb El (c & h & s & k & fd & Hch & Hsid & Hin & Hk & HPd & Epos & Hle & Hbuf & _)] Hlt.
  assert (Hlen : length (v_buf v) = 512%nat).
  { rewrite Hbuf. apply (sector_at_length fl k (total f) El). rewrite <- Hk. apply sector_no_lt; auto. }
  unfold v_fill. rewrite Hlen. destruct (N.ltb_spec (v_byte v) (N.of_nat 512)); [reflexivity|lia].
Qed.
Lemma step_byte : forall v fl p dirty, at_pos v fl p dirty -> v_byte v < 512 -> at_pos (v_with_byte v (v_byte v + 1)) fl (p + 1) dirty /\
  nth_error (v_buf v) (N.to_nat (v_byte v)) = nth_error fl (N.to_nat p) /\ p < N.of_nat (length fl).
Proof.
  intros v fl p dirty [Efmt Eeod Eb El (c & h & s & k & fd & Hch & Hsid & Hin & Hk & HPd & Epos & Hle & Hbuf & Hd)] Hlt.
  pose proof (sector_no_lt f c h s Hf Hin) as Hkt. split; [|split].
  - constructor; cbn [v_with_byte v_fmt v_eod]; auto. exists c, h, s, k, fd. cbn [v_with_byte v_ch v_sid v_disk v_byte v_buf v_dirty].
    repeat split; auto; try apply Hin; lia.
  - rewrite Hbuf. unfold sector_at. rewrite nth_slice_gen. destruct (Nat.ltb_spec (N.to_nat (v_byte v)) 512); [|lia]. f_equal. lia.
  - lia.
Qed.
(* ---- reading ---- *)
Lemma read_clean : forall rnd n v fl p, at_pos v fl p None ->
  exists v', v_read rnd n v = (v', Ok (slice fl (N.to_nat p) n)) /\
    if N.of_nat (length fl) <? p + N.of_nat n then at_end v' fl else at_pos v' fl (p + N.of_nat n) None.
Proof.
  intros rnd. induction n as [|n IH]; intros v fl p H.
  - exists v. split; [reflexivity|]. pose proof H as [_ _ _ El (c & h & s & k & fd & _ & _ & Hin & Hk & _ & Epos & Hle & _)].
    pose proof (sector_no_lt f c h s Hf Hin) as Hkt. destruct (N.ltb_spec (N.of_nat (length fl)) (p + N.of_nat 0)); [lia|].
    replace (p + N.of_nat 0) with p by lia. exact H.
  - cbn [v_read]. rewrite (ap_eod _ _ _ _ H). pose proof H as [_ _ _ El (c & h & s & k & fd & _ & _ & Hin & Hk & _ & Epos & Hle & _)].
    pose proof (sector_no_lt f c h s Hf Hin) as Hkt.
    destruct (N.lt_ge_cases p (total f * 512)) as [Hlt|Hge].
    + destruct (fill_clean rnd v fl p H Hlt) as (v1 & E1 & H1 & Hb1). rewrite E1. rewrite (ap_eod _ _ _ _ H1).
      destruct (step_byte v1 fl p None H1 Hb1) as (H2 & Hn & Hpl). rewrite Hn.
      destruct (nth_error fl (N.to_nat p)) as [b|] eqn:Enth; [|apply nth_error_None in Enth; lia].
      destruct (IH _ _ _ H2) as (v' & E' & H'). rewrite E'. exists v'. split.
      * cbn [omap obind]. f_equal. f_equal. replace (N.to_nat (p + 1)) with (S (N.to_nat p)) by lia. symmetry. apply slice_cons, Enth.
      * replace (p + 1 + N.of_nat n) with (p + N.of_nat (S n)) in H' by lia. exact H'.
    + assert (Hpe : p = total f * 512) by lia. destruct (fill_end rnd v fl p H Hpe) as (v1 & E1 & H1). rewrite E1. rewrite (ae_eod _ _ H1).
      exists v1. destruct (N.ltb_spec (N.of_nat (length fl)) (p + N.of_nat (S n))); [|lia]. split; [|exact H1].
      f_equal. f_equal. unfold slice. rewrite skipn_all2 by lia. reflexivity.
Qed.
Lemma read_dirty : forall rnd n v fl p k, at_pos v fl p (Some k) -> p + N.of_nat n <= (k + 1) * 512 ->
  exists v', v_read rnd n v = (v', Ok (slice fl (N.to_nat p) n)) /\ at_pos v' fl (p + N.of_nat n) (Some k).
Proof.
  intros rnd. induction n as [|n IH]; intros v fl p k H Hb.
  - exists v. split; [reflexivity|]. replace (p + N.of_nat 0) with p by lia. exact H.
  - cbn [v_read]. rewrite (ap_eod _ _ _ _ H).
    assert (Hlt : v_byte v < 512).
    { destruct H as [_ _ _ _ (c & h & s & k' & fd & _ & _ & _ & Hk & _ & Epos & Hle & _ & -> & _)]. lia. }
    rewrite (fill_inside rnd v fl p _ H Hlt). rewrite (ap_eod _ _ _ _ H).
    destruct (step_byte v fl p _ H Hlt) as (H2 & Hn & Hpl). rewrite Hn.
    destruct (nth_error fl (N.to_nat p)) as [b|] eqn:Enth; [|apply nth_error_None in Enth; lia].
    destruct (IH _ _ _ k H2 ltac:(lia)) as (v' & E' & H'). rewrite E'. exists v'. split.
    * cbn [omap obind]. f_equal. f_equal. replace (N.to_nat (p + 1)) with (S (N.to_nat p)) by lia. symmetry. apply slice_cons, Enth.
    * replace (p + 1 + N.of_nat n) with (p + N.of_nat (S n)) in H' by lia. exact H'.
Qed.
Lemma read_end : forall rnd n v fl, at_end v fl -> v_read rnd n v = (v, Ok []).
Proof. intros rnd [|n] v fl H; cbn [v_read]; [reflexivity|]. rewrite (ae_eod _ _ H). reflexivity. Qed.

(* ---- writing ---- *)
Lemma put_step : forall v fl p dirty b, at_pos v fl p dirty -> v_byte v < 512 -> b < 256 ->
  at_pos (v_put v b) (splice fl (N.to_nat p) [b]) (p + 1) (Some (p / 512)).
Proof.
  intros v fl p dirty b [Efmt Eeod Eb El (c & h & s & k & fd & Hch & Hsid & Hin & Hk & HPd & Epos & Hle & Hbuf & Hd)] Hlt Hby.
  pose proof (sector_no_lt f c h s Hf Hin) as Hkt.
  assert (Hkk : p / 512 = k) by (rewrite Epos; clear - Hlt; dlia).
  assert (Hlen : length (v_buf v) = 512%nat) by (rewrite Hbuf; apply (sector_at_length fl k (total f) El); rewrite <- Hk; exact Hkt).
  assert (Hk2 : k < total f) by (rewrite <- Hk; exact Hkt).
  assert (Hupd : upd (v_buf v) (N.to_nat (v_byte v)) b = splice (sector_at fl k) (N.to_nat (p - k * 512)) [b]).
  { rewrite Hbuf. replace (p - k * 512) with (v_byte v) by lia. apply list_eq_nth_error. intros i.
    rewrite nth_error_splice by (rewrite <- Hbuf, Hlen; cbn [length]; lia). cbn [length].
    destruct (Nat.eq_dec i (N.to_nat (v_byte v))) as [->|Hne].
    - rewrite nth_error_upd_same by (rewrite <- Hbuf; lia). rewrite Nat.leb_refl. destruct (Nat.ltb_spec (N.to_nat (v_byte v)) (N.to_nat (v_byte v) + 1)); [|lia].
      cbn [andb]. rewrite Nat.sub_diag. reflexivity.
    - rewrite nth_error_upd_other by auto. destruct (Nat.leb_spec (N.to_nat (v_byte v)) i); [|reflexivity].
      destruct (Nat.ltb_spec i (N.to_nat (v_byte v) + 1)); [lia|reflexivity]. }
  assert (Hfl' : splice fl (N.to_nat p) [b] = splice fl (N.to_nat (k * 512)) (upd (v_buf v) (N.to_nat (v_byte v)) b)).
  { rewrite Hupd. apply (splice_sector fl k (total f) p [b] El Hk2); cbn [length]; lia. }
  assert (Hul : length (upd (v_buf v) (N.to_nat (v_byte v)) b) = 512%nat) by (rewrite upd_length; exact Hlen).
  assert (Hl' : length (splice fl (N.to_nat p) [b]) = length fl) by (rewrite splice_length; cbn [length]; lia).
  constructor; cbn [v_put v_fmt v_eod]; auto.
  - apply splice_bytes_ok; [exact Eb|]. unfold bytes_ok, is_byte. cbn. rewrite (proj2 (N.ltb_lt _ _) Hby). reflexivity.
  - rewrite Hl'. exact El.
  - exists c, h, s, k, fd. cbn [v_put v_ch v_sid v_disk v_byte v_buf v_dirty]. repeat split; auto; try apply Hin; try lia.
    + rewrite Hfl'. symmetry. apply (sector_at_splice_same fl k (total f)); auto.
    + rewrite Hfl'. destruct dirty as [k'|].
      * destruct Hd as (_ & _ & -> & Hlf). rewrite splice_twice; [reflexivity|lia|congruence].
      * destruct Hd as (_ & ->). reflexivity.
    + rewrite Hl'. destruct dirty as [k'|]; [apply Hd|destruct Hd as [_ ->]; reflexivity].
Qed.
Lemma write_dirty : forall rnd bs v fl p k, at_pos v fl p (Some k) -> p + N.of_nat (length bs) <= (k + 1) * 512 -> bytes_ok bs = true ->
  exists v', v_write rnd bs v = (v', Ok (N.of_nat (length bs))) /\ at_pos v' (splice fl (N.to_nat p) bs) (p + N.of_nat (length bs)) (Some k).
Proof.
  intros rnd. induction bs as [|b bs IH]; intros v fl p k H Hb Hok.
  - exists v. split; [reflexivity|]. cbn [length]. replace (p + N.of_nat 0) with p by lia.
    assert (E : splice fl (N.to_nat p) [] = fl).
    { pose proof H as [_ _ _ El (c & h & s & k' & fd & _ & _ & Hin & Hk & _ & Epos & Hle & _)]. pose proof (sector_no_lt f c h s Hf Hin).
      replace (@nil N) with (slice fl (N.to_nat p) 0) by (unfold slice; reflexivity). apply splice_own. lia. }
    rewrite E. exact H.
  - cbn [v_write length] in *. rewrite (ap_eod _ _ _ _ H).
    assert (Hlt : v_byte v < 512 /\ p / 512 = k /\ p + N.of_nat (S (length bs)) <= N.of_nat (length fl)).
    { destruct H as [_ _ _ El (c & h & s & k' & fd & _ & _ & Hin & Hk & _ & Epos & Hle & _ & -> & _)]. pose proof (sector_no_lt f c h s Hf Hin).
      assert (v_byte v < 512) by lia. split; [assumption|]. split; [rewrite Epos; clear - H0; dlia|lia]. }
    destruct Hlt as (Hlt & Hkk & Hpl).
    rewrite (fill_inside rnd v fl p _ H Hlt). rewrite (ap_eod _ _ _ _ H).
    unfold bytes_ok in Hok. cbn [forallb] in Hok. apply andb_prop in Hok as [Hb0 Hok]. fold (bytes_ok bs) in Hok. unfold is_byte in Hb0. apply N.ltb_lt in Hb0.
    pose proof (put_step v fl p _ b H Hlt Hb0) as H2. rewrite Hkk in H2.
    destruct (IH _ _ _ k H2 ltac:(lia) Hok) as (v' & E' & H'). rewrite E'. exists v'. split.
    + cbn [omap obind]. f_equal. f_equal. lia.
    + rewrite splice_cons in H' by lia. replace (p + 1 + N.of_nat (length bs)) with (p + N.of_nat (S (length bs))) in H' by lia. exact H'.
Qed.
Lemma write_clean : forall rnd bs v fl p, at_pos v fl p None -> bs <> [] -> p + N.of_nat (length bs) <= (p / 512 + 1) * 512 -> p + N.of_nat (length bs) <= N.of_nat (length fl) -> bytes_ok bs = true ->
  exists v', v_write rnd bs v = (v', Ok (N.of_nat (length bs))) /\ at_pos v' (splice fl (N.to_nat p) bs) (p + N.of_nat (length bs)) (Some (p / 512)).
Proof.
  intros rnd [|b bs] v fl p H Hne Hb Hl Hok; [congruence|]. cbn [v_write length] in *. rewrite (ap_eod _ _ _ _ H).
  destruct (fill_clean rnd v fl p H ltac:(pose proof (ap_len _ _ _ _ H); lia)) as (v1 & E1 & H1 & Hlt). rewrite E1, (ap_eod _ _ _ _ H1).
  unfold bytes_ok in Hok. cbn [forallb] in Hok. apply andb_prop in Hok as [Hb0 Hok]. fold (bytes_ok bs) in Hok. unfold is_byte in Hb0. apply N.ltb_lt in Hb0.
  pose proof (put_step v1 fl p _ b H1 Hlt Hb0) as H2.
  destruct (write_dirty rnd bs _ _ _ _ H2 ltac:(lia) Hok) as (v' & E' & H'). rewrite E'. exists v'. split.
  - cbn [omap obind]. f_equal. f_equal. lia.
  - rewrite splice_cons in H' by lia. replace (p + 1 + N.of_nat (length bs)) with (p + N.of_nat (S (length bs))) in H' by lia. exact H'.
Qed.
Lemma flush_pos : forall v fl p dirty, (dirty <> None -> W) -> at_pos v fl p dirty -> exists v', v_flush v = (v', Ok tt) /\ at_pos v' fl p None.
Proof.
  intros v fl p dirty HW H. pose proof H as [Efmt Eeod Eb El (c & h & s & k & fd & Hch & Hsid & Hin & Hk & HPd & Epos & Hle & Hbuf & Hd)].
  unfold v_flush. destruct dirty as [k'|].
  - destruct Hd as (_ & Hdir & Hfl & Hlf).
    assert (Hlen : length (v_buf v) = 512%nat) by (rewrite Hbuf; apply (sector_at_length fl k (total f) El); rewrite <- Hk; apply sector_no_lt; auto).
    destruct (commit_ok (v_disk v) fd v c h s (HW ltac:(discriminate)) HPd eq_refl Efmt Hch Hsid Hin Hdir Hlen) as (d' & E & HP').
    { rewrite Hbuf. apply sector_at_bytes, Eb. }
    rewrite E. eexists. split; [reflexivity|]. constructor; cbn [v_fmt v_eod]; auto. exists c, h, s, k, fl. cbn [v_ch v_sid v_disk v_byte v_buf v_dirty].
    rewrite Hk, <- Hfl in HP'. repeat split; auto; apply Hin.
  - destruct Hd as (Hdir & ->). rewrite commit_clean by exact Hdir. exists v. auto.
Qed.
Lemma flush_end : forall v fl, at_end v fl -> v_flush v = (v, Ok tt).
Proof. intros v fl H. apply commit_clean. apply H. Qed.

(* ---- seeking ---- *)
Lemma seek_err : forall rnd v t, v_fmt v = f -> total f * 512 <= t -> v_seek_to rnd v t = (v, Err IoError).
Proof.
  intros rnd v t Hv Ht. unfold v_seek_to, v_layout. rewrite Hv. destruct (pc_layout f Hf) as (_ & _ & _ & D & _). rewrite (seek_end f t Hf) by (rewrite D; exact Ht). reflexivity.
Qed.
Lemma same_track : forall c h s c' h' s', in_layout f c h s -> in_layout f c' h' s' -> sector_no f c h s / l_s (sf_layout f) = sector_no f c' h' s' / l_s (sf_layout f) -> c = c' /\ h = h'.
Proof.
  assert (A : forall c h s, in_layout f c h s -> sector_no f c h s / l_s (sf_layout f) = c * l_h (sf_layout f) + h).
  { intros c h s (_ & _ & H). symmetry. apply (N.div_unique _ _ _ (s - 1)); [lia|unfold sector_no; lia]. }
  intros c h s c' h' s' H H' E. rewrite (A _ _ _ H), (A _ _ _ H') in E. destruct H as (_ & H & _), H' as (_ & H' & _).
  assert (B : forall c h, h < l_h (sf_layout f) -> (c * l_h (sf_layout f) + h) / l_h (sf_layout f) = c).
  { intros x y Hy. symmetry. apply (N.div_unique _ _ _ y); [exact Hy|lia]. }
  assert (c = c') by (rewrite <- (B c h H), <- (B c' h' H'), E; reflexivity). subst c'. split; [reflexivity|lia].
Qed.
Lemma seek_same : forall rnd v fl p dirty t, (dirty <> None -> W) -> at_pos v fl p dirty -> t < total f * 512 ->
  (forall k, dirty = Some k -> t / 512 / l_s (sf_layout f) = k / l_s (sf_layout f)) ->
  exists v', v_seek_to rnd v t = (v', Ok t) /\ at_pos v' fl t (match dirty with Some k => if t / 512 =? k then Some k else None | None => None end).
Proof.
  intros rnd v fl p dirty t HW H Ht Hdk. pose proof H as [Efmt Eeod Eb El (c & h & s & k & fd & Hch & Hsid & Hin & Hk & HPd & Epos & Hle & Hbuf & Hd)].
  unfold v_seek_to, v_layout. rewrite Efmt. destruct (pc_layout f Hf) as (_ & _ & _ & D & _).
  destruct (seek_spec f t Hf ltac:(rewrite D; exact Ht)) as (c' & h' & s' & Hin' & Hno' & ->). cbn [chs_c chs_h chs_s]. rewrite Hch, Hsid. cbn [ch_c ch_h].
  assert (Hm : t mod 512 < 512) by (apply N.mod_lt; discriminate).
  assert (Ht2 : t = t / 512 * 512 + t mod 512) by (pose proof (N.div_mod t 512 ltac:(discriminate)); lia).
  destruct ((c =? c') && (h =? h') && (s =? s')) eqn:Esame.
  - apply andb_prop in Esame as [Esame E3]. apply andb_prop in Esame as [E1 E2]. apply N.eqb_eq in E1, E2, E3. subst c' h' s'.
    assert (Hkk : t / 512 = k) by congruence.
    eexists. split; [reflexivity|]. constructor; cbn [v_with_byte v_fmt v_eod]; auto. exists c, h, s, k, fd.
    cbn [v_with_byte v_ch v_sid v_disk v_byte v_buf v_dirty].
    split; [exact Hch|]. split; [exact Hsid|]. split; [exact Hin|]. split; [exact Hk|]. split; [exact HPd|]. split; [lia|]. split; [lia|]. split; [exact Hbuf|].
    destruct dirty as [k'|]; [|exact Hd]. destruct Hd as (-> & Hd). rewrite Hkk, N.eqb_refl. auto.
  - destruct dirty as [k'|].
    + destruct Hd as (Ek & Hdir & Hfl & Hlf). specialize (Hdk _ eq_refl). subst k'.
      assert (Hne : t / 512 =? k = false).
      { apply N.eqb_neq. intros X. assert (Ee : sector_no f c h s = sector_no f c' h' s') by congruence.
        destruct (sector_no_inj f _ _ _ _ _ _ Hf Hin Hin' Ee) as (-> & -> & ->). rewrite !N.eqb_refl in Esame. discriminate. }
      rewrite Hne. destruct (same_track c h s c' h' s' Hin Hin') as [<- <-]; [congruence|].
      assert (Hlen : length (v_buf v) = 512%nat) by (rewrite Hbuf; apply (sector_at_length fl k (total f) El); rewrite <- Hk; apply sector_no_lt; auto).
      destruct (commit_ok (v_disk v) fd (v_with_cursor v (mkCh c h) s) c h s (HW ltac:(discriminate)) HPd eq_refl) as (d' & E & HP'); auto.
      { cbn [v_with_cursor v_buf]. rewrite Hbuf. apply sector_at_bytes, Eb. }
      rewrite E. cbn [v_with_cursor v_buf v_byte v_eod] in *. rewrite Hk, <- Hfl in HP'.
      rewrite (read_sector_ok rnd d' fl _ c h s' HP'); cbn [v_disk v_fmt v_ch]; auto.
      eexists. split; [reflexivity|]. constructor; cbn [v_with_byte v_fmt v_eod]; auto. exists c, h, s', (t / 512), fl.
      cbn [v_with_byte v_ch v_sid v_disk v_byte v_buf v_dirty]. rewrite Hno'. repeat split; auto; try apply Hin'; lia.
    + destruct Hd as (Hdir & ->). rewrite commit_clean by exact Hdir.
      rewrite (read_sector_ok rnd (v_disk v) fl _ c' h' s' HPd); cbn [v_with_cursor v_disk v_fmt v_ch]; auto.
      eexists. split; [reflexivity|]. constructor; cbn [v_with_byte v_fmt v_eod]; auto. exists c', h', s', (t / 512), fl.
      cbn [v_with_byte v_ch v_sid v_disk v_byte v_buf v_dirty]. rewrite Hno'. repeat split; auto; try apply Hin'; lia.
Qed.
Lemma seek_end_ok : forall rnd v fl t, at_end v fl -> t < total f * 512 -> t / 512 <> last_track f ->
  exists v', v_seek_to rnd v t = (v', Ok t) /\ at_pos v' fl t None.
Proof.
  intros rnd v fl t [Efmt Eeod Eb El HPd Hdir _ (c & h & Hch & Hsid & Hin & Hk)] Ht Hne.
  unfold v_seek_to, v_layout. rewrite Efmt. destruct (pc_layout f Hf) as (_ & _ & _ & D & _).
  destruct (seek_spec f t Hf ltac:(rewrite D; exact Ht)) as (c' & h' & s' & Hin' & Hno' & ->). cbn [chs_c chs_h chs_s]. rewrite Hch, Hsid. cbn [ch_c ch_h].
  assert (Hm : t mod 512 < 512) by (apply N.mod_lt; discriminate).
  assert (Ht2 : t = t / 512 * 512 + t mod 512) by (pose proof (N.div_mod t 512 ltac:(discriminate)); lia).
  destruct ((c =? c') && (h =? h') && (1 =? s')) eqn:Esame.
  - exfalso. apply andb_prop in Esame as [Esame E3]. apply andb_prop in Esame as [E1 E2]. apply N.eqb_eq in E1, E2, E3. subst c' h' s'. congruence.
  - rewrite commit_clean by exact Hdir.
    rewrite (read_sector_ok rnd (v_disk v) fl _ c' h' s' HPd); cbn [v_with_cursor v_disk v_fmt v_ch]; auto.
    eexists. split; [reflexivity|]. constructor; cbn [v_with_byte v_fmt v_eod]; auto. exists c', h', s', (t / 512), fl.
    cbn [v_with_byte v_ch v_sid v_disk v_byte v_buf v_dirty]. rewrite Hno'. repeat split; auto; try apply Hin'; lia.
Qed.
Lemma offset_pos : forall v fl p dirty, at_pos v fl p dirty -> v_offset v = p.
Proof.
  intros v fl p dirty [Efmt Eeod Eb El (c & h & s & k & fd & Hch & Hsid & Hin & Hk & HPd & Epos & Hle & Hbuf & Hd)].
  unfold v_offset, v_chs, v_layout. rewrite Efmt, Hch, Hsid. cbn [ch_c ch_h]. rewrite offset_of by auto. rewrite Hk. lia.
Qed.

(* ---- histories ---- *)
Definition state_ok (v : View) (fl : list N) (p : N) (ended : bool) (dirty : option N) : Prop :=
  if ended then at_end v fl /\ p = N.of_nat (length fl) /\ dirty = None else at_pos v fl p dirty.
Theorem history : forall rnds ops k v fl p ended dirty, state_ok v fl p ended dirty -> careful f fl p ended dirty ops ->
  (dirty <> None \/ (exists b, In (VWrite b) ops) -> W) ->
  exists v' fl' p' e' d' rs, v_calls rnds k v ops = Some (v', rs) /\ flat_calls fl p ops = (fl', p', rs) /\ state_ok v' fl' p' e' d' /\
    (forall b, clean_end b ops -> (dirty <> None -> b = true) -> d' = None).
Proof.
  intros rnds. induction ops as [|op ops IH]; intros k v fl p ended dirty Hst Hc HW.
  - exists v, fl, p, ended, dirty, []. repeat split; auto. intros b Hb Hd. cbn in Hb. subst b. destruct dirty; [specialize (Hd ltac:(discriminate)); discriminate|reflexivity].
  - assert (HW' : dirty <> None \/ (exists b, In (VWrite b) ops) -> W) by (intros [X|[b X]]; apply HW; [left; exact X|right; exists b; right; exact X]).
    cbn [v_calls flat_calls]. destruct op as [n|s|b|]; cbn [careful] in Hc; cbn [clean_end].
    + destruct Hc as [Hd Hc]. unfold flat_read in *. cbn [fst] in Hc.
      destruct ended; cbn [orb state_ok] in *.
      * destruct Hst as (He & Hp & ->). cbn [v_call]. rewrite (read_end _ n v fl He).
        assert (Es : slice fl (N.to_nat p) n = []) by (unfold slice; rewrite skipn_all2 by lia; apply firstn_nil).
        rewrite Es in *. cbn [length] in *. replace (p + N.of_nat 0) with p in * by lia.
        destruct (IH (S k) v fl p true None) as (v' & fl' & p' & e' & d' & rs & R1 & R2 & R3 & R4); [cbn; auto|exact Hc|exact HW'|].
        rewrite R1, R2. exists v', fl', p', e', d', (RBytes [] :: rs). auto.
      * assert (Hr : exists v1, v_read (rnds k) n v = (v1, Ok (slice fl (N.to_nat p) n)) /\
                  state_ok v1 fl (p + N.of_nat (length (slice fl (N.to_nat p) n))) (N.of_nat (length fl) <? p + N.of_nat n) dirty).
        { pose proof (ap_len _ _ _ _ Hst) as El.
          assert (Hpl : p <= N.of_nat (length fl)).
          { destruct Hst as [_ _ _ _ (c & h & s & k' & fd & _ & _ & Hin & Hk & _ & Epos & Hle & _)]. pose proof (sector_no_lt f c h s Hf Hin). lia. }
          destruct dirty as [kd|].
          - specialize (Hd _ eq_refl). destruct (read_dirty (rnds k) n v fl p kd Hst Hd) as (v1 & E1 & H1). exists v1. split; [exact E1|].
            assert (Hin : p + N.of_nat n <= N.of_nat (length fl)).
            { destruct Hst as [_ _ _ _ (c & h & s & k' & fd & _ & _ & Hin & Hk & _ & Epos & Hle & _ & -> & _)]. pose proof (sector_no_lt f c h s Hf Hin). lia. }
            destruct (N.ltb_spec (N.of_nat (length fl)) (p + N.of_nat n)); [lia|]. cbn [state_ok]. rewrite slice_length by lia. exact H1.
          - destruct (read_clean (rnds k) n v fl p Hst) as (v1 & E1 & H1). exists v1. split; [exact E1|].
            destruct (N.ltb_spec (N.of_nat (length fl)) (p + N.of_nat n)); cbn [state_ok].
            + split; [exact H1|]. split; [|reflexivity]. unfold slice. rewrite firstn_all2 by (rewrite skipn_length; lia). rewrite skipn_length. lia.
            + rewrite slice_length by lia. exact H1. }
        destruct Hr as (v1 & E1 & H1). cbn [v_call]. rewrite E1.
        destruct (IH (S k) v1 _ _ _ _ H1 Hc HW') as (v' & fl' & p' & e' & d' & rs & R1 & R2 & R3 & R4).
        rewrite R1, R2. exists v', fl', p', e', d', (RBytes (slice fl (N.to_nat p) n) :: rs). repeat split; auto.
    + destruct Hc as [[Ha1 Ha2] Hc]. unfold flat_seek in *. set (t := Z.to_N (target fl p s)) in *.
      assert (Hlen : N.of_nat (length fl) = total f * 512) by (destruct ended; [apply (ae_len _ _ (proj1 Hst))|apply (ap_len _ _ _ _ Hst)]).
      assert (Hfmt : v_fmt v = f) by (destruct ended; [apply (ae_fmt _ _ (proj1 Hst))|apply (ap_fmt _ _ _ _ Hst)]).
      assert (Ev : v_seek (rnds k) v s = v_seek_to (rnds k) v t).
      { unfold v_seek. f_equal. unfold t, target, add_signed. destruct (pc_layout f Hf) as (_ & _ & _ & D & _). rewrite Hfmt, D, <- Hlen.
        destruct s as [o|z|z]; [lia|f_equal; lia|]. destruct ended; [exfalso; destruct (Ha1 eq_refl) as [X _]; eapply X; reflexivity|].
        rewrite (offset_pos _ _ _ _ Hst). reflexivity. }
      cbn [v_call]. rewrite Ev. destruct (N.ltb_spec t (N.of_nat (length fl))) as [Hlt|Hge].
      * assert (Hr : exists v1, v_seek_to (rnds k) v t = (v1, Ok t) /\ state_ok v1 fl t false (dirty_after fl p s dirty)).
        { unfold dirty_after. fold t. rewrite (proj2 (N.ltb_lt _ _) Hlt). cbn [andb]. destruct ended; cbn [state_ok] in *.
          - destruct Hst as (He & _ & ->). apply seek_end_ok; auto; [lia|]. apply Ha1. reflexivity.
          - destruct (seek_same (rnds k) v fl p dirty t) as (v1 & E1 & H1); [intros X; apply HW; left; exact X|exact Hst|lia|intros kd ->; apply (Ha2 kd eq_refl); exact Hlt|].
            exists v1. split; [exact E1|]. destruct dirty as [kd|]; [|exact H1]. destruct (t / 512 =? kd); exact H1. }
        destruct Hr as (v1 & E1 & H1). rewrite E1. cbn [fst negb] in Hc. rewrite andb_false_r in Hc.
        assert (HD : dirty_after fl p s dirty <> None -> dirty <> None) by (unfold dirty_after; destruct dirty; [discriminate|auto]).
        destruct (IH (S k) v1 _ _ _ _ H1 Hc) as (v' & fl' & p' & e' & d' & rs & R1 & R2 & R3 & R4); [intros [X|X]; apply HW'; [left; auto|right; exact X]|].
        rewrite R1, R2. exists v', fl', p', e', d', (RPos t :: rs). repeat split; auto. intros b Hb Hd. apply (R4 b Hb). auto.
      * rewrite (seek_err (rnds k) v t Hfmt) by lia. cbn [fst negb] in Hc. rewrite andb_true_r in Hc.
        assert (HD : dirty_after fl p s dirty = dirty).
        { unfold dirty_after. fold t. destruct dirty; [|reflexivity]. destruct (N.ltb_spec t (N.of_nat (length fl))); [lia|reflexivity]. }
        rewrite HD in Hc.
        destruct (IH (S k) v _ _ _ _ Hst Hc HW') as (v' & fl' & p' & e' & d' & rs & R1 & R2 & R3 & R4).
        rewrite R1, R2. exists v', fl', p', e', d', (RError :: rs). repeat split; auto.
    + destruct Hc as [(-> & Hok & Hne & Hb1 & Hb2 & Hb3) Hc]. cbn [state_ok] in Hst.
      assert (Hr : exists v1, v_write (rnds k) b v = (v1, Ok (N.of_nat (length b))) /\ at_pos v1 (splice fl (N.to_nat p) b) (p + N.of_nat (length b)) (Some (p / 512))).
      { destruct dirty as [kd|]; [|apply write_clean; auto]. specialize (Hb3 _ eq_refl). subst kd. apply write_dirty; auto. }
      destruct Hr as (v1 & E1 & H1). cbn [v_call]. rewrite E1.
      destruct (IH (S k) v1 _ _ false _ H1 Hc (fun _ => HW (or_intror (ex_intro _ b (or_introl eq_refl))))) as (v' & fl' & p' & e' & d' & rs & R1 & R2 & R3 & R4).
      rewrite R1, R2. exists v', fl', p', e', d', (RWritten (N.of_nat (length b)) :: rs). repeat split; auto. intros bb Hb _. exact (R4 true Hb (fun _ => eq_refl)).
    + assert (Hr : exists v1, v_flush v = (v1, Ok tt) /\ state_ok v1 fl p ended None).
      { destruct ended; cbn [state_ok] in *.
        - destruct Hst as (He & Hp & ->). exists v. rewrite (flush_end v fl He). auto.
        - destruct (flush_pos v fl p dirty (fun X => HW (or_introl X)) Hst) as (v1 & E1 & H1). eauto. }
      destruct Hr as (v1 & E1 & H1). cbn [v_call]. rewrite E1.
      destruct (IH (S k) v1 _ _ _ _ H1 Hc (fun X => match X with or_introl Y => False_ind _ (Y eq_refl) | or_intror (ex_intro _ b Y) => HW (or_intror (ex_intro _ b (or_intror Y))) end)) as (v' & fl' & p' & e' & d' & rs & R1 & R2 & R3 & R4).
      rewrite R1, R2. exists v', fl', p', e', d', (RDone :: rs). repeat split; auto. intros bb Hb _. apply (R4 false Hb). congruence.
Qed.
Lemma final_disk : forall v fl p e, state_ok v fl p e None -> P (v_disk v) fl.
Proof.
  intros v fl p [|] H; cbn [state_ok] in H; [apply H|]. destruct H as [_ _ _ _ (c & h & s & k & fd & _ & _ & _ & _ & HPd & _ & _ & _ & _ & ->)]. exact HPd.
Qed.
End Store.
