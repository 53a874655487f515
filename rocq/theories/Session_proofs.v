(* Session_proofs.v - no request panics. *)
From Verif Require Import Base Base_lemmas Chs_model BitRing_model BitRing_proofs Mfm_spec Mfm_model Mfm_proofs Crc_model Types_model System34_model BitStream_model Bs_general_proofs Total_proofs Session_spec.
From Coq Require Import Lia.
Import ListNotations.
Local Open Scope nat_scope.

Lemma same_refl t : same_layout t t.
Proof. unfold same_layout. split; [|split; [|split; [|split; [|split]]]]; reflexivity. Qed.
Lemma same_trans a b c : same_layout a b -> same_layout b c -> same_layout a c.
Proof. intros (A1 & A2 & A3 & A4 & A5 & A6) (B1 & B2 & B3 & B4 & B5 & B6). unfold same_layout. rewrite B1, B2, B3, B4, B5, B6. split; [|split; [|split; [|split; [|split]]]]; assumption. Qed.

(* ---- which element is found ---- *)
Lemma found_item q index : forall items ei wc bc wh mt k c ae de del nd b, find_elem_loop q index items ei wc bc wh mt = Found k c ae de del nd b ->
  exists i j, k = ei + j /\ nth_error items j = Some i /\
    ((i_elem i = ElData c ae de del /\ nd = false) \/ (i_elem i = ElHeader c ae nd /\ (ae || nd)%bool = true)).
Proof.
  induction items as [|x items IH]; intros ei wc bc wh mt k c ae de del nd b E; cbn [find_elem_loop] in E; [discriminate E|].
  assert (Next : forall wc bc wh mt, find_elem_loop q index items (S ei) wc bc wh mt = Found k c ae de del nd b -> exists i j, k = ei + j /\ nth_error (x :: items) j = Some i /\
    ((i_elem i = ElData c ae de del /\ nd = false) \/ (i_elem i = ElHeader c ae nd /\ (ae || nd)%bool = true))).
  { intros wc' bc' wh' mt' E'. destruct (IH _ _ _ _ _ _ _ _ _ _ _ _ E') as (i & j & -> & Hj & H). exists i, (S j). split; [lia|]. split; [exact Hj|exact H]. }
  destruct (i_start x <? index); [exact (Next _ _ _ _ E)|]. destruct (i_elem x) as [m|c0 ae0 dm0|c0 ae0 de0 del0] eqn:Ex; [exact (Next _ _ _ _ E)| |].
  - destruct (chsn_s c0 =? q_s q)%N; [|exact (Next _ _ _ _ E)]. destruct (ae0 || dm0) eqn:Ho; [|exact (Next _ _ _ _ E)].
    injection E as <- <- <- <- <- <- <-. exists x, 0. split; [lia|]. split; [reflexivity|]. right. split; [exact Ex|exact Ho].
  - destruct mt; [|exact (Next _ _ _ _ E)]. injection E as <- <- <- <- <- <- <-. exists x, 0. split; [lia|]. split; [reflexivity|]. left. split; [exact Ex|reflexivity].
Qed.

(* ---- reads ---- *)
Lemma crc_bytes_total l : l <> [] -> exists a b, crc16_bytes l = Ok (a, b).
Proof.
  intros H. assert (L : 0 < length l) by (destruct l; [congruence|cbn; lia]). unfold crc16_bytes. cbv zeta. rewrite !(oindex_nth _ _ 0%N) by lia. cbn [obind]. eexists. eexists. reflexivity.
Qed.
Lemma decode_total rnd m i scope n : sound m -> 0 < n -> (forall k, i_elem i <> ElMarker k) -> exists buf c, decode_element rnd m i scope n = Ok (buf, elem_range (i_elem i) scope, Some c) /\ length buf = n.
Proof.
  intros H Hn Hm. unfold decode_element. destruct (decoded_total rnd m H n (i_start i)) as (l & E & L). rewrite E. cbn [obind]. destruct (crc_bytes_total l) as (a & b & Ec); [intros ->; cbn in L; lia|]. rewrite Ec. cbn [obind].
  destruct (i_elem i) as [k| |] eqn:Ei; [exfalso; exact (Hm k eq_refl)| |]; eexists; eexists; (split; [reflexivity|exact L]).
Qed.
Lemma read_total_sector rnd t q n offset scope : alive t -> scope <> EntireElement ->
  (bt_schema t = false /\ bt_read_sector rnd t q n offset scope false = Err SchemaError) \/
  exists r, bt_read_sector rnd t q n offset scope false = Ok r /\
    ((rs_not_found r = true /\ rs_buf r = [] /\ rs_range r = (0, 0)) \/
     exists c, rs_id r = Some c /\ rs_not_found r = false /\ length (rs_buf r) = match n with Some nv => N.to_nat (n_to_bytes nv) | None => n_size c end + match scope with CrcOnly => n_size c + 4 | _ => 6 end /\
       rs_range r = match scope with CrcOnly => (n_size c + 4, n_size c + 6) | _ => (4, n_size c + 4) end).
Proof.
  intros (S0 & _ & _) Hs. unfold bt_read_sector, scan_sector_element. destruct (bt_schema t); cbn [negb]; [|left; split; reflexivity]. right. cbn [obind]. destruct (find_sector_element q (md_items (bt_meta t)) (off_of offset)) as [k c ae de del nd b|wc bc wh] eqn:E; [|eexists; split; [reflexivity|left; split; [reflexivity|]; split; reflexivity]].
  unfold find_sector_element in E. destruct (found_item _ _ _ _ _ _ _ _ _ _ _ _ _ _ _ E) as (i & j & Ek & Hj & Hi). cbn in Ek. subst j.
  destruct nd; [eexists; split; [reflexivity|left; split; [reflexivity|]; split; reflexivity]|]. cbn [negb]. rewrite andb_true_r. destruct ae; [eexists; split; [reflexivity|left; split; [reflexivity|]; split; reflexivity]|].
  destruct Hi as [[Hi _]|[_ Hi]]; [|discriminate Hi]. unfold oindex. rewrite Hj. cbn [obind].
  set (len := match n with Some nv => _ | None => _ end). assert (Ov : elem_size (i_elem i) - (snd (elem_range (i_elem i) scope) - fst (elem_range (i_elem i) scope)) = match scope with CrcOnly => n_size c + 4 | _ => 6 end).
  { rewrite Hi. destruct scope; [congruence| |]; cbn [elem_size elem_range fst snd]; lia. }
  assert (Ll : len = match n with Some nv => N.to_nat (n_to_bytes nv) | None => n_size c end + match scope with CrcOnly => n_size c + 4 | _ => 6 end) by (unfold len; destruct n; rewrite Ov; reflexivity). clearbody len.
  destruct (decode_total rnd (bt_data t) i scope len S0) as (buf & x & Ed & Lb); [rewrite Ll; destruct scope; lia|rewrite Hi; discriminate|]. rewrite Ed. cbn [obind]. eexists. split; [reflexivity|]. right. exists c. split; [reflexivity|]. split; [reflexivity|]. cbn [rs_buf rs_range]. split; [rewrite Lb; exact Ll|].
  rewrite Hi. destruct scope; [congruence| |]; cbn [elem_size elem_range]; f_equal; lia.
Qed.

(* ---- writes ---- *)
Lemma write_total m buf off : sound m -> exists m' n, write_encoded_buf m buf off = Ok (m', n) /\ sound m' /\ length (mfm_data m') = length (mfm_data m).
Proof.
  intros H. pose proof (proj1 (proj1 H)) as P. unfold write_encoded_buf. cbv zeta. rewrite nudge_spec by exact (proj1 H). cbn [obind]. match goal with |- context [if negb ?a && ?b then ?x else ?y] => generalize (if negb a && b then x else y) end. intros o. rewrite (ring_set_list (m_bits m) o (mfm_encode buf false EData) P). cbn [obind].
  assert (L : length (circ_write (r_bits (m_bits m)) o (mfm_encode buf false EData)) = length (r_bits (m_bits m))) by apply circ_write_length. eexists. eexists. split; [reflexivity|].
  destruct H as [(_ & B & C & D) W]. split; [split; [|exact W]; split; [apply plain_with; [exact P|exact L]|split; [exact B|split; [exact C|exact D]]]|exact L].
Qed.
Lemma upd_map {A B} (f : A -> B) (l : list A) k x y : nth_error l k = Some x -> f y = f x -> map f (upd l k y) = map f l.
Proof.
  intros H E. apply list_eq_nth_error. intros j. rewrite !nth_error_map. destruct (Nat.eq_dec j k) as [->|Hj]; [rewrite nth_error_upd_same by (apply nth_error_Some; congruence); rewrite H; cbn; f_equal; exact E|rewrite nth_error_upd_other by congruence; reflexivity].
Qed.
Lemma upd_same_item {A} (l : list A) k x : nth_error l k = Some x -> upd l k x = l.
Proof. intros H. apply list_eq_nth_error. intros j. destruct (Nat.eq_dec j k) as [->|Hj]; [rewrite nth_error_upd_same by (apply nth_error_Some; congruence); symmetry; exact H|rewrite nth_error_upd_other by congruence; reflexivity]. Qed.
Lemma upd_good l k x y : Forall good_item l -> nth_error l k = Some x -> good_item y -> Forall good_item (upd l k y).
Proof.
  intros H Hk Hy. apply Forall_forall. intros z Hz. apply In_nth_error in Hz. destruct Hz as [j Hj]. destruct (Nat.eq_dec j k) as [->|Hn]; [rewrite nth_error_upd_same in Hj by (apply nth_error_Some; congruence); congruence|rewrite nth_error_upd_other in Hj by congruence].
  rewrite Forall_forall in H. apply H. eapply nth_error_In. exact Hj.
Qed.
Lemma write_sector_total t q offset data scope del debug : alive t ->
  (exists e, bt_write_sector t q offset data scope del debug = Err e) \/ exists t' w, bt_write_sector t q offset data scope del debug = Ok (t', w) /\ alive t' /\ same_layout t t'.
Proof.
  intros HA. pose proof HA as (S0 & Hs & HG). unfold bt_write_sector, scan_sector_element. destruct (bt_schema t) eqn:Es; cbn [negb]; [|left; eexists; reflexivity]. cbn [obind].
  assert (Same : forall w : WriteSectorResult, exists t' w', Ok (t, w) = Ok (t', w') /\ alive t' /\ same_layout t t') by (intros w; exists t, w; split; [reflexivity|]; split; [exact HA|apply same_refl]).
  destruct (find_sector_element q (md_items (bt_meta t)) (off_of offset)) as [k c ae de dl nd b|wc bc wh] eqn:E; [|right; apply Same].
  unfold find_sector_element in E. destruct (found_item _ _ _ _ _ _ _ _ _ _ _ _ _ _ _ E) as (i & j & Ek & Hj & Hi). cbn in Ek. subst j.
  destruct nd; [right; apply Same|]. cbv zeta. destruct (ae && negb debug)%bool; [right; apply Same|]. destruct (negb (Bool.eqb del dl)); [left; eexists; reflexivity|]. destruct (negb (n_size c =? length data)); [left; eexists; reflexivity|]. right.
  unfold oindex. rewrite Hj. cbn [obind].
  assert (Fin : forall m' n i', encode_element (bt_data t) i data = Ok (m', i', n) -> sound m' -> length (mfm_data m') = length (mfm_data (bt_data t)) -> i_start i' = i_start i -> i_end i' = i_end i -> good_item i' ->
    exists t' w', (let! (m, i', _) := encode_element (bt_data t) i data in Ok (mkTrack (bt_ch t) m (mkMeta (upd (md_items (bt_meta t)) k i') (md_ids (bt_meta t)) (md_valid_ids (bt_meta t))) true, mkWrite false false false (opt_ne (q_c q) (chsn_c c)) false (opt_ne (q_h q) (chsn_h c)))) = Ok (t', w') /\ alive t' /\ same_layout t t').
  { intros m' n i' Ee Sm Lm Hst Hen Hg. rewrite Ee. cbn [obind]. eexists. eexists. split; [reflexivity|]. split.
    - split; [exact Sm|]. split; [cbn [bt_schema]; intros X; discriminate X|]. cbn [bt_meta md_items]. exact (upd_good _ _ _ _ HG Hj Hg).
    - unfold same_layout. cbn [bt_ch bt_data bt_meta md_ids md_items bt_schema]. split; [reflexivity|]. split; [exact Lm|]. split; [reflexivity|]. split; [exact (upd_map _ _ _ _ _ Hj Hst)|]. split; [exact (upd_map _ _ _ _ _ Hj Hen)|symmetry; exact Es]. }
  assert (Gi : good_item i) by (rewrite Forall_forall in HG; apply HG; eapply nth_error_In; exact Hj).
  destruct Hi as [[Hi _]|[Hi _]].
  - destruct (write_total (bt_data t) data (i_start i + 4 * MFM_BYTE_LEN) S0) as (m1 & n1 & E1 & S1 & L1).
    set (crc := crc_ibm_3740 data (Some (crc_ibm_3740 (if dl then IDAM_MARKER_BYTES else DAM_MARKER_BYTES) None))).
    destruct (write_total m1 (be16 crc) (i_start i + (4 + length data) * MFM_BYTE_LEN) S1) as (m2 & n2 & E2 & S2 & L2).
    apply (Fin m2 (n1 + n2) (set_elem i (ElData c ae false dl))); [|exact S2|rewrite L2; exact L1|reflexivity|reflexivity|unfold good_item in *; rewrite Hi in Gi; cbn [set_elem i_elem i_start i_end]; exact Gi].
    unfold encode_element. rewrite Hi. cbv zeta. fold crc. rewrite E1. cbn [obind]. rewrite E2. cbn [obind]. reflexivity.
  - apply (Fin (bt_data t) 0 i); [unfold encode_element; rewrite Hi; reflexivity|exact S0|reflexivity|reflexivity|reflexivity|exact Gi].
Qed.
Lemma recalc_total rnd t q offset : alive t -> (exists e, bt_recalculate_crc rnd t q offset = Err e) \/ exists t', bt_recalculate_crc rnd t q offset = Ok t' /\ alive t' /\ same_layout t t'.
Proof.
  intros H. unfold bt_recalculate_crc. destruct (read_total_sector rnd t q None offset DataOnly H ltac:(discriminate)) as [[_ E]|(r & E & Hr)]; rewrite E; cbn [obind]; [left; eexists; reflexivity|].
  assert (D : exists d, read_data_of r = Ok d).
  { unfold read_data_of. destruct Hr as [(_ & Hb & ->)|(c & _ & _ & Hb & ->)]; [rewrite Hb; eexists; reflexivity|]. rewrite Hb. destruct (Nat.ltb_spec (n_size c + 4) 4); [lia|]. destruct (Nat.ltb_spec (n_size c + 6) (n_size c + 4)); [lia|]. eexists. reflexivity. }
  destruct D as [d Ed]. rewrite Ed. cbn [obind]. destruct (write_sector_total t q offset d CrcOnly (rs_deleted r) false H) as [[e Ew]|(t' & w & Ew & A & L)]; rewrite Ew; cbn [obind]; [left; eexists; reflexivity|]. right. exists t'. split; [reflexivity|]. split; [exact A|exact L].
Qed.

(* ---- reading all sectors ---- *)
Definition ahead (index : nat) (items : list Inst) : nat := length (filter (fun i => index <=? i_start i) items).
Lemma next_found index : forall items ei idam k c ae de del nd b, next_sector_loop index items ei idam = Found k c ae de del nd b ->
  exists i j, k = ei + j /\ nth_error items j = Some i /\ index <= i_start i /\ i_elem i = ElData (match i_elem i with ElData c0 _ _ _ => c0 | _ => c end) ae de del.
Proof.
  induction items as [|x items IH]; intros ei idam k c ae de del nd b E; cbn [next_sector_loop] in E; [discriminate E|].
  assert (Next : forall idam', next_sector_loop index items (S ei) idam' = Found k c ae de del nd b -> exists i j, k = ei + j /\ nth_error (x :: items) j = Some i /\ index <= i_start i /\ i_elem i = ElData (match i_elem i with ElData c0 _ _ _ => c0 | _ => c end) ae de del).
  { intros idam' E'. destruct (IH _ _ _ _ _ _ _ _ _ E') as (i & j & -> & Hj & H). exists i, (S j). split; [lia|]. split; [exact Hj|exact H]. }
  destruct (Nat.ltb_spec (i_start x) index) as [Hx|Hx]; [exact (Next _ E)|]. destruct (i_elem x) as [[]|c0 ae0 dm0|c0 ae0 de0 del0] eqn:Ex; try exact (Next _ E).
  destruct idam as [c1|]; [|exact (Next _ E)]. injection E as <- <- <- <- <- <- <-. exists x, 0. split; [lia|]. split; [reflexivity|]. split; [exact Hx|]. rewrite Ex. reflexivity.
Qed.
Lemma ahead_less index items j i : nth_error items j = Some i -> index <= i_start i -> i_start i < i_end i -> ahead (i_end i) items < ahead index items.
Proof.
  unfold ahead. revert j. induction items as [|x items IH]; intros [|j] Hj Ha Hb; try discriminate Hj.
  - injection Hj as ->. cbn [filter]. destruct (Nat.leb_spec (i_end i) (i_start i)); [lia|]. destruct (Nat.leb_spec index (i_start i)); [|lia]. cbn [length].
    assert (G : length (filter (fun y => i_end i <=? i_start y) items) <= length (filter (fun y => index <=? i_start y) items)); [|lia].
    clear IH. induction items as [|y items IH]; [reflexivity|]. cbn [filter]. destruct (Nat.leb_spec (i_end i) (i_start y)), (Nat.leb_spec index (i_start y)); cbn [length]; lia.
  - cbn [nth_error] in Hj. specialize (IH j Hj Ha Hb). cbn [filter]. destruct (Nat.leb_spec (i_end i) (i_start x)), (Nat.leb_spec index (i_start x)); cbn [length]; lia.
Qed.
Lemma exact_total rnd m off n : sound m -> exists l c, read_exact_at rnd m off n = Ok (l, with_cursor m c) /\ length l = n.
Proof.
  intros H. unfold read_exact_at, mfm_seek_start, mfm_read. rewrite (sound_nonempty m H). rewrite nudge_spec by exact (proj1 H). cbn [obind]. match goal with |- context [if negb ?a && ?b then ?x else ?y] => generalize (if negb a && b then x else y) end. intros c.
  change (ring_is_empty (m_bits (with_cursor m c))) with (ring_is_empty (m_bits m)). rewrite (sound_nonempty m H). destruct (read_total rnd n (with_cursor m c) (sound_cursor _ _ H)) as (l & c' & E & L). rewrite E. exists l, c'. split; [reflexivity|exact L].
Qed.
Lemma all_total rnd len eot : forall fuel t index acc, alive t -> ahead index (md_items (bt_meta t)) < fuel ->
  exists acc' t', read_all_loop rnd fuel t len eot (bt_next_sector t index) acc = Ok (acc', t') /\ alive t' /\ same_layout t t' /\ mfm_data (bt_data t') = mfm_data (bt_data t) /\ bt_meta t' = bt_meta t.
Proof.
  induction fuel as [|f IH]; intros t index acc HA Hf; [lia|]. unfold bt_next_sector. destruct (next_sector_loop index (md_items (bt_meta t)) 0 None) as [k c ae de del nd b|wc bc wh] eqn:E; cbn [read_all_loop]; [|exists acc, t; split; [reflexivity|]; split; [exact HA|]; split; [apply same_refl|split; reflexivity]].
  destruct (next_found _ _ _ _ _ _ _ _ _ _ _ E) as (i & j & Ek & Hj & Hi & Ei). cbn in Ek. subst j. unfold oindex. rewrite Hj. cbn [obind]. pose proof HA as (S0 & Hs & HG).
  destruct (exact_total rnd (bt_data t) (i_start i + 64) len S0) as (l & cu & Er & _). rewrite Er. cbn [obind]. cbv zeta.
  set (t1 := with_data t (with_cursor (bt_data t) cu)). assert (A1 : alive t1) by (split; [exact S0|split; [exact Hs|exact HG]]). assert (L1 : same_layout t t1) by (unfold same_layout; split; [|split; [|split; [|split; [|split]]]]; reflexivity).
  destruct (chsn_s c =? eot)%N; [eexists; exists t1; split; [reflexivity|]; split; [exact A1|]; split; [exact L1|split; reflexivity]|].
  assert (G : i_start i < i_end i) by (rewrite Forall_forall in HG; pose proof (HG i (nth_error_In _ _ Hj)) as G; unfold good_item in G; rewrite Ei in G; exact G).
  pose proof (ahead_less index _ _ _ Hj Hi G) as Lt.
  match goal with |- context [read_all_loop rnd f t1 len eot _ ?a] => destruct (IH t1 (i_end i) a A1 ltac:(change (md_items (bt_meta t1)) with (md_items (bt_meta t)); lia)) as (acc' & t' & E2 & A2 & L2 & D2) end.
  exists acc', t'. split; [exact E2|]. split; [exact A2|]. split; [exact (same_trans _ _ _ L1 L2)|exact D2].
Qed.
Lemma read_all_total rnd t n eot : alive t -> exists r t', bt_read_all rnd t n eot = Ok (r, t') /\ alive t' /\ same_layout t t' /\ mfm_data (bt_data t') = mfm_data (bt_data t) /\ bt_meta t' = bt_meta t.
Proof.
  intros H. unfold bt_read_all. match goal with |- context [read_all_loop rnd ?f t ?l eot _ ?a] => destruct (all_total rnd l eot f t 0 a H) as (acc & t' & E & A & L & D) end.
  - unfold ahead. clear. induction (md_items (bt_meta t)) as [|x l IH]; [cbn; lia|]. cbn [filter]. destruct (0 <=? i_start x); cbn [length]; lia.
  - rewrite E. cbn [obind]. eexists. exists t'. split; [reflexivity|]. split; [exact A|]. split; [exact L|exact D].
Qed.
Lemma read_track_total rnd t offset overdump : alive t -> (exists e, bt_read rnd t offset overdump = Err e) \/ exists r, bt_read rnd t offset overdump = Ok r.
Proof.
  intros (H & _). unfold bt_read. cbv zeta. match goal with |- context [obind ?o _] => destruct o as [x|er|] eqn:E end; cbn [obind].
  - destruct (decoded_total rnd (bt_data t) H (mfm_len (bt_data t) / 16 + (if 0 <? mfm_len (bt_data t) mod 16 then 1 else 0) + off_of overdump) x) as (l & El & _). rewrite El. cbn [obind]. right. eexists. reflexivity.
  - left. eexists. reflexivity.
  - exfalso. destruct offset as [o|]; [|discriminate E]. destruct (o <? 0)%Z; [destruct (_ <? 0)%Z in E; discriminate E|destruct (_ <=? o)%Z in E; discriminate E].
Qed.

(* ---- any history ---- *)
Lemma request_total rnd t r : alive t -> usual r -> exists t', request rnd t r = Ok t' /\ alive t' /\ same_layout t t'.
Proof.
  intros H U. assert (Same : exists t', Ok t = Ok t' /\ alive t' /\ same_layout t t') by (exists t; split; [reflexivity|]; split; [exact H|apply same_refl]). destruct r as [q n o s|q o|q o d s del dbg|q o|n eot|o d]; cbn [request usual] in *.
  - destruct (read_total_sector rnd t q n o s H U) as [[_ E]|(r & E & _)]; rewrite E; exact Same.
  - unfold bt_scan_sector, scan_sector_element. destruct (bt_schema t); cbn [obind then_track]; exact Same.
  - destruct (write_sector_total t q o d s del dbg H) as [[e E]|(t' & w & E & A & L)]; rewrite E; [exact Same|]. exists t'. split; [reflexivity|]. split; [exact A|exact L].
  - destruct (recalc_total rnd t q o H) as [[e E]|(t' & E & A & L)]; rewrite E; [exact Same|]. exists t'. split; [reflexivity|]. split; [exact A|exact L].
  - destruct (read_all_total rnd t n eot H) as (r & t' & E & A & L & _). rewrite E. exists t'. split; [reflexivity|]. split; [exact A|exact L].
  - destruct (read_track_total rnd t o d H) as [[e E]|[r E]]; rewrite E; exact Same.
Qed.
Lemma requests_total : forall l t, alive t -> Forall (fun x => usual (snd x)) l -> exists t', requests t l = Ok t' /\ alive t' /\ same_layout t t'.
Proof.
  induction l as [|[rnd r] l IH]; intros t H U; [exists t; split; [reflexivity|]; split; [exact H|apply same_refl]|]. pose proof (Forall_inv U) as U1. pose proof (Forall_inv_tail U) as U2. cbn [snd] in U1.
  destruct (request_total rnd t r H U1) as (t1 & E & A & L). cbn [requests]. rewrite E. destruct (IH t1 A U2) as (t' & E2 & A2 & L2). exists t'. split; [exact E2|]. split; [exact A2|exact (same_trans _ _ _ L L2)].
Qed.
