(* Codec_lemmas.v - facts about freshly created codecs and packaged statements for Codec_props. *)
From Verif Require Import Base Base_lemmas BitRing_model RangeCheck_model Mfm_model Mfm_spec BitRing_proofs Mfm_proofs Marker_proofs RangeCheck_proofs Weak_proofs.

Lemma nth_repeat_lt {A} (x d : A) n i : i < n -> nth i (repeat x n) d = x.
Proof. revert i; induction n as [|n IH]; intros [|i] H; cbn; try lia; auto. apply IH; lia. Qed.

Lemma mfm_new_wf bits ct w m : mfm_new bits ct w = Ok m -> mfm_data m <> [] -> mfm_wf m.
Proof.
  unfold mfm_new. set (b := match ct with Some n => firstn n bits | None => bits end).
  set (wk := match w with Some _ => _ | None => _ end). set (sy := match get_mfm_sync_offset b with Some s => s | None => false end).
  destruct (Nat.ltb_spec (length wk) (length b)); [discriminate|].
  intros E; injection E as <-. unfold mfm_data; cbn. intros Hb.
  unfold mfm_wf, mfm_len, ring_len; cbn. rewrite repeat_length. repeat split; auto.
  - destruct b; [congruence|cbn; lia].
  - destruct b; [congruence|cbn; lia].
  - right. repeat split. destruct b; [congruence|cbn in *; lia].
Qed.

Lemma mfm_new_data bits m : mfm_new bits None None = Ok m -> mfm_data m = bits.
Proof. unfold mfm_new. rewrite repeat_length, Nat.ltb_irrefl. intros E; injection E as <-. reflexivity. Qed.
Lemma mfm_new_ok bits : exists m, mfm_new bits None None = Ok m.
Proof. unfold mfm_new. rewrite repeat_length, Nat.ltb_irrefl. eexists; reflexivity. Qed.

(* the initial clock map is constant, so no position is ever adjusted - except at the very last
   cell of an odd-phase track, whose successor wraps to the override value *)
Lemma mfm_new_phase bits w m i n : mfm_new bits None w = Ok m -> in_phase m i n 0.
Proof.
  unfold mfm_new. set (wk := match w with Some _ => _ | None => _ end).
  set (sy := match get_mfm_sync_offset bits with Some s => s | None => false end).
  destruct (Nat.ltb_spec (length wk) (length bits)); [discriminate|]. intros E; injection E as <-.
  left. split; auto. intros k Hk. generalize (i + 16 * k) as j; intros j. unfold clk, mfm_len, ring_len. cbn [m_clock ring_set_wrap_value r_wrapv ring_from m_bits r_bits]. rewrite repeat_length.
  destruct (Nat.ltb_spec (j + 1) (length bits)) as [Hj|Hj]; [|right; reflexivity].
  destruct (Nat.ltb_spec j (length bits)); [|lia].
  rewrite !nth_repeat_lt by lia. destruct sy; auto.
Qed.

Lemma mfm_new_no_weak bits m i n : mfm_new bits None None = Ok m -> no_weak m i n.
Proof.
  unfold mfm_new. rewrite repeat_length, Nat.ltb_irrefl. intros E; injection E as <-.
  intros k Hk. unfold weak_at; cbn. unfold circ. rewrite repeat_length.
  destruct bits as [|b t]; [reflexivity|]. 
  assert (G : forall j n, nth j (repeat false n) false = false).
  { intros j m'; revert j; induction m' as [|m' IH]; intros [|j]; cbn; auto. }
  rewrite G. apply andb_false_r.
Qed.

(* find_marker as three equivalences *)
Lemma find_marker_some m mk start limit p v : plain (m_bits m) -> me_len mk = 64 ->
  find_marker m mk start limit = Ok (Some (p, v)) <->
  first_occ (mfm_data m) (me_mask mk) (me_bits mk) start (search_lim m limit) p /\ 0 < p /\
  v = (win64 (mfm_data m) p mod 2 ^ 16)%N.
Proof.
  intros H1 H2. pose proof (find_marker_spec m mk start limit H1 H2) as [(q & Hq & E)|(Hn & E)]; rewrite E.
  - change 0xFFFF%N with (N.ones 16). rewrite N.land_ones. split.
    + destruct (Nat.eqb_spec q 0); [discriminate|]. intros T; injection T as <- <-. repeat split; auto; try apply Hq; lia.
    + intros (Hp & Hz & ->). rewrite (first_occ_unique _ _ _ _ _ _ _ Hp Hq) in *.
      destruct (Nat.eqb_spec q 0); [lia|reflexivity].
  - split; [discriminate|]. intros ((A1 & A2 & A3 & A4) & _). exfalso. exact (Hn p A1 A2 A3).
Qed.
Lemma find_marker_none m mk start limit : plain (m_bits m) -> me_len mk = 64 ->
  find_marker m mk start limit = Ok None <->
  no_occ (mfm_data m) (me_mask mk) (me_bits mk) start (search_lim m limit).
Proof.
  intros H1 H2. pose proof (find_marker_spec m mk start limit H1 H2) as [(q & Hq & E)|(Hn & E)]; rewrite E.
  - destruct Hq as (A1 & A2 & A3 & A4). split; [destruct (q =? 0); discriminate|]. intros Hn. exfalso. exact (Hn q A1 A2 A3).
  - tauto.
Qed.
Lemma find_marker_panic m mk start limit : plain (m_bits m) -> me_len mk = 64 ->
  find_marker m mk start limit = Panic <->
  first_occ (mfm_data m) (me_mask mk) (me_bits mk) start (search_lim m limit) 0.
Proof.
  intros H1 H2. pose proof (find_marker_spec m mk start limit H1 H2) as [(q & Hq & E)|(Hn & E)]; rewrite E.
  - split.
    + destruct (Nat.eqb_spec q 0); [subst; auto|discriminate].
    + intros H0. rewrite (first_occ_unique _ _ _ _ _ _ _ Hq H0). reflexivity.
  - split; [discriminate|]. intros (A1 & A2 & A3 & A4). exfalso. exact (Hn 0 A1 A2 A3).
Qed.
