From Verif Require Import Base Base_lemmas Chs_model Chs_spec.
Local Open Scope N_scope.

(* ---------- LBA arithmetic ---------- *)

Lemma lba_decompose c h s hh ss :
  0 < ss -> h < hh -> s < ss ->
  ((c * hh + h) * ss + s) / (hh * ss) = c /\
  (((c * hh + h) * ss + s) / ss) mod hh = h /\
  ((c * hh + h) * ss + s) mod ss = s.
Proof.
  intros H0 Hh Hs.
  assert (E1 : ((c * hh + h) * ss + s) / ss = c * hh + h).
  { symmetry; apply (N.div_unique _ _ _ s); lia. }
  repeat split.
  - symmetry; apply (N.div_unique _ _ _ (h * ss + s)); nia.
  - rewrite E1. symmetry; apply (N.mod_unique _ _ c); lia.
  - symmetry; apply (N.mod_unique _ _ (c * hh + h)); lia.
Qed.

Lemma lba_recompose lba hh ss :
  0 < ss -> 0 < hh ->
  (lba / (hh * ss) * hh + (lba / ss) mod hh) * ss + lba mod ss = lba.
Proof.
  intros H0 H1.
  rewrite (N.mul_comm hh ss), <- N.div_div by lia.
  pose proof (N.div_mod (lba / ss) hh) as E1.
  pose proof (N.div_mod lba ss) as E2. nia.
Qed.

Lemma from_lba_inrange g lba :
  layout_ok g -> l_s_off g <= 1 ->
  lba < total_sectors g ->
  from_lba lba g =
    if (lba mod l_s g + l_s_off g <=? l_s g) then
      Ok (Some (mkChs (lba / (l_h g * l_s g)) ((lba / l_s g) mod l_h g) (lba mod l_s g + l_s_off g)))
    else Ok None.
Proof.
  intros (Hc & Hh & Hs & Ho) Ho1 Hl. unfold from_lba, total_sectors in *.
  destruct (N.eqb_spec (l_h g * l_s g) 0) as [E|E]; [nia|].
  assert (Hcc : lba / (l_h g * l_s g) < l_c g) by (apply N.div_lt_upper_bound; nia).
  assert (Hhh : (lba / l_s g) mod l_h g < l_h g) by (apply N.mod_lt; lia).
  assert (Hss : lba mod l_s g < l_s g) by (apply N.mod_lt; lia).
  set (c := lba / (l_h g * l_s g)) in *. set (h := (lba / l_s g) mod l_h g) in *.
  set (s := lba mod l_s g) in *. clearbody c h s.
  destruct (N.leb_spec (l_c g) c); [lia|]. destruct (N.leb_spec (l_h g) h); [lia|].
  cbn [orb].
  destruct (N.ltb_spec (l_s g) (s + l_s_off g)), (N.leb_spec (s + l_s_off g) (l_s g)); try lia; auto.
  unfold as_u16, as_u8. rewrite !N.mod_small by lia. reflexivity.
Qed.

Lemma from_lba_ok g lba :
  layout_ok g -> l_s_off g <= 1 -> lba < total_sectors g ->
  from_lba lba g =
    Ok (Some (mkChs (lba / (l_h g * l_s g)) ((lba / l_s g) mod l_h g) (lba mod l_s g + l_s_off g))).
Proof.
  intros Hg Ho Hl. rewrite from_lba_inrange by auto.
  destruct Hg as (Hc & Hh & Hs & Ho').
  assert (lba mod l_s g < l_s g) by (apply N.mod_lt; lia).
  destruct (N.leb_spec (lba mod l_s g + l_s_off g) (l_s g)); [reflexivity|lia].
Qed.

Lemma lba_chs_lba g lba :
  layout_ok g -> l_s_off g <= 1 -> lba < total_sectors g ->
  exists x, from_lba lba g = Ok (Some x) /\ on_disk g x /\ to_lba x g = lba.
Proof.
  intros Hg Ho Hl. rewrite from_lba_ok by auto. eexists; split; [reflexivity|].
  destruct Hg as (Hc & Hh & Hs & Ho').
  unfold on_disk, to_lba, total_sectors in *; cbn [chs_c chs_h chs_s].
  assert (lba / (l_h g * l_s g) < l_c g) by (apply N.div_lt_upper_bound; nia).
  assert ((lba / l_s g) mod l_h g < l_h g) by (apply N.mod_lt; lia).
  assert (lba mod l_s g < l_s g) by (apply N.mod_lt; lia).
  split; [lia|]. replace (lba mod l_s g + l_s_off g - l_s_off g) with (lba mod l_s g) by lia.
  apply lba_recompose; lia.
Qed.

Lemma from_lba_out g lba :
  layout_ok g -> total_sectors g <= lba -> from_lba lba g = Ok None.
Proof.
  intros (Hc & Hh & Hs & Ho) Hl. unfold from_lba, total_sectors in *.
  destruct (N.eqb_spec (l_h g * l_s g) 0) as [E|E]; [nia|].
  assert (l_c g <= lba / (l_h g * l_s g)) by (apply N.div_le_lower_bound; nia).
  destruct (N.leb_spec (l_c g) (lba / (l_h g * l_s g))); [reflexivity|lia].
Qed.

Lemma to_lba_range g x : on_disk g x -> to_lba x g < total_sectors g.
Proof.
  intros (Hc & Hh & Hs). unfold to_lba, total_sectors.
  assert (chs_s x - l_s_off g < l_s g) by lia.
  assert (chs_c x * l_h g + chs_h x + 1 <= l_c g * l_h g) by nia. nia.
Qed.

Lemma chs_lba_chs g x :
  layout_ok g -> l_s_off g <= 1 -> on_disk g x -> from_lba (to_lba x g) g = Ok (Some x).
Proof.
  intros Hg Ho Hx. rewrite from_lba_ok by (auto using to_lba_range).
  destruct Hg as (Hc & Hh & Hs & Ho'). destruct Hx as (Xc & Xh & Xs). unfold to_lba.
  destruct (lba_decompose (chs_c x) (chs_h x) (chs_s x - l_s_off g) (l_h g) (l_s g)) as (E1 & E2 & E3); try lia.
  rewrite E1, E2, E3. clear E1 E2 E3. destruct x as [c h s]; cbn [chs_c chs_h chs_s] in *. do 3 f_equal. lia.
Qed.

(* ---------- enumeration ---------- *)

Definition sector_at (g : SectorLayout) (i : N) : DiskChs :=
  mkChs (i / (l_h g * l_s g)) ((i / l_s g) mod l_h g) (l_s_off g + i mod l_s g).

Lemma N2Nat_div a b : b <> 0 -> N.to_nat (a / b) = (N.to_nat a / N.to_nat b)%nat.
Proof. intros H. apply N2Nat.inj_div. Qed.

Lemma all_sectors_length g : N.of_nat (length (all_sectors g)) = total_sectors g.
Proof.
  unfold all_sectors, total_sectors.
  rewrite (flat_map_const_length _ (N.to_nat (l_h g) * N.to_nat (l_s g))%nat).
  - rewrite Nseq_length. lia.
  - intros c. rewrite (flat_map_const_length _ (N.to_nat (l_s g))), Nseq_length; auto.
    intros h. rewrite map_length, Nseq_length; auto.
Qed.

Lemma nth_error_all_sectors g i :
  0 < l_h g -> 0 < l_s g ->
  nth_error (all_sectors g) i =
    if N.of_nat i <? total_sectors g then Some (sector_at g (N.of_nat i)) else None.
Proof.
  intros Hh Hs. unfold all_sectors.
  rewrite (nth_error_flat_map_const _ (N.to_nat (l_h g) * N.to_nat (l_s g))%nat); [|lia|].
  2:{ intros c. rewrite (flat_map_const_length _ (N.to_nat (l_s g))), Nseq_length; auto.
      intros h. rewrite map_length, Nseq_length; auto. }
  rewrite nth_error_Nseq.
  set (k := (N.to_nat (l_h g) * N.to_nat (l_s g))%nat).
  assert (Hk : k = N.to_nat (l_h g * l_s g)) by (unfold k; lia).
  assert (Hq : (i / k)%nat = N.to_nat (N.of_nat i / (l_h g * l_s g))).
  { rewrite N2Nat_div by nia. rewrite Nat2N.id, Hk. reflexivity. }
  unfold total_sectors.
  assert (Hdiv : N.of_nat i < l_c g * l_h g * l_s g <-> N.of_nat i / (l_h g * l_s g) < l_c g).
  { split; intros H.
    - apply N.div_lt_upper_bound; nia.
    - pose proof (N.mul_succ_div_gt (N.of_nat i) (l_h g * l_s g)). nia. }
  rewrite Hq.
  destruct (Nat.ltb_spec (N.to_nat (N.of_nat i / (l_h g * l_s g))) (N.to_nat (l_c g)));
  destruct (N.ltb_spec (N.of_nat i) (l_c g * l_h g * l_s g)); try lia; auto.
  rewrite N2Nat.id.
  rewrite (nth_error_flat_map_const _ (N.to_nat (l_s g))); [|lia|].
  2:{ intros h. rewrite map_length, Nseq_length; auto. }
  assert (Hr : (i mod k)%nat = N.to_nat (N.of_nat i mod (l_h g * l_s g))).
  { rewrite N2Nat.inj_mod. rewrite Nat2N.id, Hk. reflexivity. }
  rewrite Hr.
  assert (Hr1 : (N.to_nat (N.of_nat i mod (l_h g * l_s g)) / N.to_nat (l_s g))%nat
                = N.to_nat ((N.of_nat i / l_s g) mod l_h g)).
  { rewrite <- N2Nat.inj_div. f_equal.
    rewrite (N.mul_comm (l_h g)). rewrite N.mod_mul_r by lia.
    rewrite N.add_comm, N.mul_comm, N.div_add_l by lia. rewrite (N.div_small (_ mod _)) by (apply N.mod_lt; lia). lia. }
  assert (Hr2 : (N.to_nat (N.of_nat i mod (l_h g * l_s g)) mod N.to_nat (l_s g))%nat
                = N.to_nat (N.of_nat i mod l_s g)).
  { rewrite <- N2Nat.inj_mod. f_equal.
    rewrite (N.mul_comm (l_h g)). rewrite N.mod_mul_r by lia.
    rewrite N.mul_comm, N.mod_add by lia. apply N.mod_mod; lia. }
  rewrite Hr1, Hr2, nth_error_Nseq.
  assert ((N.of_nat i / l_s g) mod l_h g < l_h g) by (apply N.mod_lt; lia).
  assert (N.of_nat i mod l_s g < l_s g) by (apply N.mod_lt; lia).
  destruct (Nat.ltb_spec (N.to_nat ((N.of_nat i / l_s g) mod l_h g)) (N.to_nat (l_h g))); [|lia].
  rewrite N2Nat.id. erewrite map_nth_error.
  2:{ rewrite nth_error_Nseq. destruct (Nat.ltb_spec (N.to_nat (N.of_nat i mod l_s g)) (N.to_nat (l_s g))); [reflexivity|lia]. }
  rewrite N2Nat.id. reflexivity.
Qed.

Lemma next_sector_at g i :
  layout_ok g -> l_s g - 1 + l_s_off g <= 255 ->
  i < total_sectors g ->
  next_sector (sector_at g i) g =
    Ok (if i + 1 <? total_sectors g then Some (sector_at g (i + 1)) else None).
Proof.
  intros (Hc & Hh & Hs & Ho) Ho' Hi.
  unfold next_sector. destruct (N.eqb_spec (l_s g) 0); [lia|].
  destruct (N.ltb_spec 255 (l_s g - 1 + l_s_off g)); [lia|].
  (* name the coordinates *)
  set (c := i / (l_h g * l_s g)). set (h := (i / l_s g) mod l_h g). set (s := i mod l_s g).
  assert (Ei : i = (c * l_h g + h) * l_s g + s) by (symmetry; apply lba_recompose; lia).
  assert (Hch : c < l_c g) by (unfold total_sectors in Hi; apply N.div_lt_upper_bound; nia).
  assert (Hhh : h < l_h g) by (apply N.mod_lt; lia).
  assert (Hss : s < l_s g) by (apply N.mod_lt; lia).
  assert (Esec : sector_at g i = mkChs c h (l_s_off g + s)) by reflexivity.
  rewrite Esec; clear Esec; cbn [chs_c chs_h chs_s].
  clearbody c h s.
  destruct (N.ltb_spec (l_s_off g + s) (l_s g - 1 + l_s_off g)) as [H1|H1].
  - assert (Ei1 : i + 1 = (c * l_h g + h) * l_s g + (s + 1)) by lia.
    destruct (N.ltb_spec (i + 1) (total_sectors g)) as [_|Hge].
    2:{ exfalso. unfold total_sectors in *. assert (c * l_h g + h + 1 <= l_c g * l_h g) by nia. nia. }
    unfold sector_at. rewrite Ei1.
    destruct (lba_decompose c h (s+1) (l_h g) (l_s g)) as (A1 & A2 & A3); try lia.
    rewrite A1, A2, A3. clear A1 A2 A3. cbn [chs_c chs_h chs_s]. do 3 f_equal. lia.
  - assert (Es : s = l_s g - 1) by lia.
    destruct (N.ltb_spec h (l_h g - 1)) as [H2|H2].
    + assert (Ei1 : i + 1 = (c * l_h g + (h + 1)) * l_s g + 0) by nia.
      destruct (N.ltb_spec (i + 1) (total_sectors g)) as [_|Hge].
      2:{ exfalso. unfold total_sectors in *. assert (c * l_h g + h + 1 + 1 <= l_c g * l_h g) by nia. nia. }
      unfold sector_at. rewrite Ei1.
      destruct (lba_decompose c (h+1) 0 (l_h g) (l_s g)) as (A1 & A2 & A3); try lia.
      rewrite A1, A2, A3. clear A1 A2 A3. cbn [chs_c chs_h chs_s]. do 3 f_equal. lia.
    + assert (Eh : h = l_h g - 1) by lia.
      destruct (N.ltb_spec c (l_c g - 1)) as [H3|H3].
      * assert (Ei1 : i + 1 = ((c + 1) * l_h g + 0) * l_s g + 0) by nia.
        destruct (N.ltb_spec (i + 1) (total_sectors g)) as [_|Hge].
        2:{ exfalso. unfold total_sectors in *. assert ((c + 2) * l_h g <= l_c g * l_h g) by nia. nia. }
        unfold sector_at. rewrite Ei1.
        destruct (lba_decompose (c+1) 0 0 (l_h g) (l_s g)) as (A1 & A2 & A3); try lia.
        rewrite A1, A2, A3. clear A1 A2 A3. cbn [chs_c chs_h chs_s]. do 3 f_equal. lia.
      * destruct (N.ltb_spec (i + 1) (total_sectors g)) as [Hlt|_]; [|reflexivity].
        exfalso. unfold total_sectors in *. assert (c = l_c g - 1) by lia. 
        assert (l_s g = s + 1) by lia. assert (l_h g = h + 1) by lia. assert (l_c g = c + 1) by lia.
        assert (i + 1 = l_c g * l_h g * l_s g) by (rewrite Ei; repeat match goal with H : _ = _ + 1 |- _ => rewrite H; clear H end; ring). lia.
Qed.

Lemma chs_iter_calls_at g k i :
  layout_ok g -> l_s g - 1 + l_s_off g <= 255 -> N.of_nat i < total_sectors g ->
  chs_iter_calls k g (Some (sector_at g (N.of_nat i))) =
    Ok (map (nth_error (all_sectors g)) (seq (S i) k)).
Proof.
  intros Hg Ho. revert i; induction k as [|k IH]; intros i Hi; [reflexivity|].
  cbn [chs_iter_calls chs_iter_next seq map]. rewrite next_sector_at by auto. cbn [obind fst snd].
  destruct Hg as (Hc & Hh & Hs & Ho').
  rewrite nth_error_all_sectors by lia.
  replace (N.of_nat (S i)) with (N.of_nat i + 1) by lia.
  destruct (N.ltb_spec (N.of_nat i + 1) (total_sectors g)) as [Hlt|Hge]; cbn [obind fst snd].
  - replace (N.of_nat i + 1) with (N.of_nat (S i)) by lia. rewrite IH by lia. reflexivity.
  - rewrite IH by auto. cbn [obind]. do 2 f_equal.
    (* both are all None *)
    clear IH. assert (Hn : forall j n, (i < j)%nat -> map (nth_error (all_sectors g)) (seq j n) = repeat None n).
    { intros j n; revert j; induction n as [|n IHn]; intros j Hj; [reflexivity|]. cbn [seq map repeat].
      rewrite nth_error_all_sectors by lia.
      destruct (N.ltb_spec (N.of_nat j) (total_sectors g)); [lia|]. f_equal. apply IHn; lia. }
    rewrite !Hn by lia. reflexivity.
Qed.

Lemma chs_iter_drained g k :
  layout_ok g -> l_s g - 1 + l_s_off g <= 255 -> 0 < l_c g ->
  chs_iter k g = Ok (drained k (all_sectors g)).
Proof.
  intros Hg Ho Hc0. unfold chs_iter, drained. destruct k as [|k]; [reflexivity|].
  cbn [chs_iter_calls chs_iter_next obind fst snd seq map].
  assert (Ht : 0 < total_sectors g).
  { destruct Hg as (Hc & Hh & Hs & Ho'). unfold total_sectors. nia. }
  assert (E0 : mkChs 0 0 (l_s_off g) = sector_at g (N.of_nat 0)).
  { destruct Hg as (Hc & Hh & Hs & Ho'). unfold sector_at. cbn [N.of_nat].
    rewrite !N.div_0_l, !N.mod_0_l by nia. f_equal; lia. }
  rewrite E0, chs_iter_calls_at by auto. cbn [obind].
  rewrite nth_error_all_sectors by (destruct Hg; lia).
  destruct (N.ltb_spec (N.of_nat 0) (total_sectors g)); [reflexivity|lia].
Qed.

Lemma NoDup_flat_map {A B} (f : A -> list B) l :
  NoDup l -> (forall x, In x l -> NoDup (f x)) ->
  (forall x y z, In x l -> In y l -> In z (f x) -> In z (f y) -> x = y) -> NoDup (flat_map f l).
Proof.
  induction l as [|a l IH]; intros Hl Hf Hd; cbn [flat_map]; [constructor|].
  inversion Hl as [|? ? Hnin Hl']; subst.
  assert (H1 : NoDup (f a)) by (apply Hf; left; auto).
  assert (H2 : NoDup (flat_map f l)).
  { apply IH; auto; intros; [apply Hf|eapply Hd]; eauto; right; auto. }
  assert (H3 : forall z, In z (f a) -> ~ In z (flat_map f l)).
  { intros z Hz Hin. apply in_flat_map in Hin as (y & Hy & Hzy).
    apply Hnin. rewrite (Hd a y z); auto; [left|right]; auto. }
  clear -H1 H2 H3. induction (f a) as [|z t IHt]; cbn [app]; [auto|].
  inversion H1; subst. constructor.
  - rewrite in_app_iff; intros [?|?]; [auto|]. eapply H3; eauto; left; auto.
  - apply IHt; auto. intros; apply H3; right; auto.
Qed.

Lemma in_all_sectors g x : In x (all_sectors g) <-> on_disk g x.
Proof.
  unfold all_sectors, on_disk. rewrite in_flat_map. split.
  - intros (c & Hc & H). apply in_flat_map in H as (h & Hh & H). apply in_map_iff in H as (s & <- & Hs).
    rewrite in_Nseq in *. cbn [chs_c chs_h chs_s]. lia.
  - intros (Hc & Hh & Hs). exists (chs_c x). rewrite in_Nseq; split; [auto|].
    apply in_flat_map. exists (chs_h x). rewrite in_Nseq; split; [auto|].
    apply in_map_iff. exists (chs_s x - l_s_off g). rewrite in_Nseq; split; [|lia].
    destruct x as [xc xh xs]; cbn [chs_c chs_h chs_s] in *; f_equal; lia.
Qed.

Lemma all_sectors_NoDup g : NoDup (all_sectors g).
Proof.
  unfold all_sectors. apply NoDup_flat_map; [apply NoDup_Nseq| |].
  - intros c _. apply NoDup_flat_map; [apply NoDup_Nseq| |].
    + intros h _. apply FinFun.Injective_map_NoDup; [|apply NoDup_Nseq].
      intros a b E; injection E; lia.
    + intros h1 h2 z _ _ H1 H2. apply in_map_iff in H1 as (? & <- & _). apply in_map_iff in H2 as (? & E & _).
      injection E; auto.
  - intros c1 c2 z _ _ H1 H2. apply in_flat_map in H1 as (? & _ & H1). apply in_flat_map in H2 as (? & _ & H2).
    apply in_map_iff in H1 as (? & <- & _). apply in_map_iff in H2 as (? & E & _). injection E; auto.
Qed.

(* position in the enumeration = to_lba *)
Lemma all_sectors_lba g x i :
  layout_ok g -> nth_error (all_sectors g) i = Some x -> to_lba x g = N.of_nat i.
Proof.
  intros (Hc & Hh & Hs & Ho) H. rewrite nth_error_all_sectors in H by lia.
  destruct (N.ltb_spec (N.of_nat i) (total_sectors g)); [|discriminate]. injection H as <-.
  unfold to_lba, sector_at; cbn [chs_c chs_h chs_s].
  replace (l_s_off g + N.of_nat i mod l_s g - l_s_off g) with (N.of_nat i mod l_s g) by lia.
  apply lba_recompose; lia.
Qed.

Lemma offset_sectors_spec g i k :
  layout_ok g -> l_s g - 1 + l_s_off g <= 255 -> N.of_nat i < total_sectors g ->
  offset_sectors (sector_at g (N.of_nat i)) k g = Ok (nth_error (all_sectors g) (i + k)).
Proof.
  intros Hg Ho. revert i; induction k as [|k IH]; intros i Hi; cbn [offset_sectors].
  - rewrite nth_error_all_sectors by (destruct Hg; lia).
    replace (i + 0)%nat with i by lia.
    destruct (N.ltb_spec (N.of_nat i) (total_sectors g)); [reflexivity|lia].
  - rewrite next_sector_at by auto. cbn [obind].
    destruct (N.ltb_spec (N.of_nat i + 1) (total_sectors g)).
    + replace (N.of_nat i + 1) with (N.of_nat (S i)) by lia. rewrite IH by lia.
      f_equal. f_equal. lia.
    + rewrite nth_error_all_sectors by (destruct Hg; lia).
      destruct (N.ltb_spec (N.of_nat (i + S k)) (total_sectors g)); [lia|reflexivity].
Qed.

Lemma offset_sectors_on_disk g x k :
  layout_ok g -> l_s g - 1 + l_s_off g <= 255 -> on_disk g x ->
  offset_sectors x k g = Ok (nth_error (all_sectors g) (N.to_nat (to_lba x g) + k)).
Proof.
  intros Hg Ho Hx. pose proof (to_lba_range _ _ Hx) as Hr.
  apply in_all_sectors in Hx. apply In_nth_error in Hx as [i Hi].
  pose proof (all_sectors_lba _ _ _ Hg Hi) as E. rewrite E, Nat2N.id.
  rewrite nth_error_all_sectors in Hi by (destruct Hg; lia).
  destruct (N.ltb_spec (N.of_nat i) (total_sectors g)); [|discriminate]. injection Hi as <-.
  apply offset_sectors_spec; auto.
Qed.

Lemma next_sector_on_disk g x :
  layout_ok g -> l_s g - 1 + l_s_off g <= 255 -> on_disk g x ->
  next_sector x g = Ok (nth_error (all_sectors g) (S (N.to_nat (to_lba x g)))).
Proof.
  intros Hg Ho Hx. pose proof (offset_sectors_on_disk g x 1 Hg Ho Hx) as H.
  cbn [offset_sectors] in H. rewrite Nat.add_1_r in H.
  destruct (next_sector x g) as [[y|]| |]; cbn [obind] in H; congruence.
Qed.

(* ---------- tracks ---------- *)

Lemma nth_error_all_tracks geom i :
  0 < ch_h geom ->
  nth_error (all_tracks geom) i =
    if N.of_nat i <? ch_c geom * ch_h geom
    then Some (mkCh (N.of_nat i / ch_h geom) (N.of_nat i mod ch_h geom)) else None.
Proof.
  intros Hh. unfold all_tracks.
  rewrite (nth_error_flat_map_const _ (N.to_nat (ch_h geom))); [|lia|intros; rewrite map_length, Nseq_length; auto].
  rewrite nth_error_Nseq.
  assert (Hq : (i / N.to_nat (ch_h geom))%nat = N.to_nat (N.of_nat i / ch_h geom))
    by (rewrite N2Nat.inj_div, Nat2N.id; reflexivity).
  assert (Hr : (i mod N.to_nat (ch_h geom))%nat = N.to_nat (N.of_nat i mod ch_h geom))
    by (rewrite N2Nat.inj_mod, Nat2N.id; reflexivity).
  rewrite Hq, Hr.
  assert (Hdiv : N.of_nat i < ch_c geom * ch_h geom <-> N.of_nat i / ch_h geom < ch_c geom).
  { split; intros H; [apply N.div_lt_upper_bound; nia|].
    pose proof (N.mul_succ_div_gt (N.of_nat i) (ch_h geom)). nia. }
  destruct (Nat.ltb_spec (N.to_nat (N.of_nat i / ch_h geom)) (N.to_nat (ch_c geom)));
  destruct (N.ltb_spec (N.of_nat i) (ch_c geom * ch_h geom)); try lia; auto.
  assert (N.of_nat i mod ch_h geom < ch_h geom) by (apply N.mod_lt; lia).
  rewrite N2Nat.id. erewrite map_nth_error; [|rewrite nth_error_Nseq;
    destruct (Nat.ltb_spec (N.to_nat (N.of_nat i mod ch_h geom)) (N.to_nat (ch_h geom))); [reflexivity|lia]].
  rewrite N2Nat.id; reflexivity.
Qed.

Lemma next_track_at geom i :
  0 < ch_h geom -> N.of_nat i < ch_c geom * ch_h geom ->
  next_track (mkCh (N.of_nat i / ch_h geom) (N.of_nat i mod ch_h geom)) geom =
  nth_error (all_tracks geom) (S i).
Proof.
  intros Hh Hi. rewrite nth_error_all_tracks by auto. unfold next_track; cbn [ch_c ch_h].
  set (H := ch_h geom) in *. set (C := ch_c geom) in *.
  assert (Ei : N.of_nat i = H * (N.of_nat i / H) + N.of_nat i mod H) by (apply N.div_mod; lia).
  assert (Hc : N.of_nat i / H < C) by (apply N.div_lt_upper_bound; nia).
  assert (Hr : N.of_nat i mod H < H) by (apply N.mod_lt; lia).
  replace (N.of_nat (S i)) with (N.of_nat i + 1) by lia.
  set (q := N.of_nat i / H) in *. set (r := N.of_nat i mod H) in *.
  clearbody q r. rewrite Ei. clear Ei.
  destruct (N.ltb_spec r (H - 1)).
  - destruct (N.ltb_spec (H * q + r + 1) (C * H)); [|nia].
    do 2 f_equal; [apply (N.div_unique _ _ _ (r + 1))|apply (N.mod_unique _ _ q)]; lia.
  - assert (r = H - 1) by lia. subst r.
    destruct (N.ltb_spec q (C - 1)); destruct (N.ltb_spec (H * q + (H - 1) + 1) (C * H)); try nia; auto.
    do 2 f_equal; [apply (N.div_unique _ _ _ 0)|apply (N.mod_unique _ _ (q + 1))]; nia.
Qed.

Lemma ch_iter_calls_at geom k i :
  0 < ch_h geom -> N.of_nat i < ch_c geom * ch_h geom ->
  ch_iter_calls k geom (Some (mkCh (N.of_nat i / ch_h geom) (N.of_nat i mod ch_h geom))) =
  map (nth_error (all_tracks geom)) (seq (S i) k).
Proof.
  intros Hh. revert i; induction k as [|k IH]; intros i Hi; [reflexivity|].
  cbn [ch_iter_calls ch_iter_next seq map]. rewrite next_track_at by auto.
  rewrite nth_error_all_tracks by auto.
  destruct (N.ltb_spec (N.of_nat (S i)) (ch_c geom * ch_h geom)).
  - rewrite IH by auto. reflexivity.
  - rewrite IH by auto. f_equal.
    assert (Hn : forall j n, (i < j)%nat -> map (nth_error (all_tracks geom)) (seq j n) = repeat None n).
    { intros j n; revert j; induction n as [|n IHn]; intros j Hj; [reflexivity|]. cbn [seq map repeat].
      rewrite nth_error_all_tracks by lia.
      destruct (N.ltb_spec (N.of_nat j) (ch_c geom * ch_h geom)); [lia|]. f_equal. apply IHn; lia. }
    rewrite !Hn by lia. reflexivity.
Qed.

Lemma ch_iter_drained geom k :
  0 < ch_h geom -> 0 < ch_c geom -> ch_iter k geom = drained k (all_tracks geom).
Proof.
  intros Hh Hc. unfold ch_iter, drained. destruct k as [|k]; [reflexivity|].
  cbn [ch_iter_calls ch_iter_next seq map].
  assert (E0 : mkCh 0 0 = mkCh (N.of_nat 0 / ch_h geom) (N.of_nat 0 mod ch_h geom)).
  { cbn [N.of_nat]. rewrite N.div_0_l, N.mod_0_l by lia; reflexivity. }
  rewrite nth_error_all_tracks by auto.
  destruct (N.ltb_spec (N.of_nat 0) (ch_c geom * ch_h geom)); [|nia].
  rewrite <- E0. f_equal. rewrite E0 at 1. apply ch_iter_calls_at; auto.
Qed.

Lemma in_all_tracks geom x : In x (all_tracks geom) <-> ch_c x < ch_c geom /\ ch_h x < ch_h geom.
Proof.
  unfold all_tracks. rewrite in_flat_map. split.
  - intros (c & Hc & H). apply in_map_iff in H as (h & <- & Hh). rewrite in_Nseq in *. auto.
  - intros (Hc & Hh). exists (ch_c x). rewrite in_Nseq; split; auto.
    apply in_map_iff. exists (ch_h x). rewrite in_Nseq. split; [destruct x|]; auto.
Qed.

Lemma all_tracks_NoDup geom : NoDup (all_tracks geom).
Proof.
  unfold all_tracks. apply NoDup_flat_map; [apply NoDup_Nseq| |].
  - intros c _. apply FinFun.Injective_map_NoDup; [|apply NoDup_Nseq]. intros a b E; injection E; auto.
  - intros c1 c2 z _ _ H1 H2. apply in_map_iff in H1 as (? & <- & _). apply in_map_iff in H2 as (? & E & _).
    injection E; auto.
Qed.

Lemma next_track_index geom x i :
  0 < ch_h geom -> nth_error (all_tracks geom) i = Some x ->
  next_track x geom = nth_error (all_tracks geom) (S i).
Proof.
  intros Hh H. rewrite nth_error_all_tracks in H by auto.
  destruct (N.ltb_spec (N.of_nat i) (ch_c geom * ch_h geom)); [|discriminate]. injection H as <-.
  apply next_track_at; auto.
Qed.

Lemma seek_next_track_spec geom x i :
  0 < ch_h geom -> nth_error (all_tracks geom) i = Some x ->
  seek_next_track x geom =
    match nth_error (all_tracks geom) (S i) with Some y => (y, true) | None => (x, false) end.
Proof.
  intros Hh H. pose proof (next_track_index _ _ _ Hh H) as E. rewrite <- E.
  assert (Hx : ch_c x < ch_c geom /\ ch_h x < ch_h geom) by (apply in_all_tracks; eapply nth_error_In; eauto).
  unfold seek_next_track, next_track in *.
  destruct (N.eqb_spec (ch_c x) (ch_c geom - 1)); destruct (N.leb_spec (ch_h geom - 1) (ch_h x));
  destruct (N.ltb_spec (ch_h x) (ch_h geom - 1)); destruct (N.ltb_spec (ch_c x) (ch_c geom - 1)); cbn [andb]; try lia; auto.
Qed.

Lemma next_track_unchecked_spec x heads :
  0 < heads -> ch_h x < heads -> ch_c x < 65535 ->
  exists y, next_track_unchecked x heads = Ok y /\ ch_h y < heads /\
            ch_c y * heads + ch_h y = ch_c x * heads + ch_h x + 1.
Proof.
  intros H0 Hh Hc. unfold next_track_unchecked.
  destruct (N.ltb_spec (ch_h x) (heads - 1)).
  - eexists; split; [reflexivity|]. cbn [ch_c ch_h]. lia.
  - destruct (N.eqb_spec (ch_c x) 65535); [lia|]. eexists; split; [reflexivity|]. cbn [ch_c ch_h]. nia.
Qed.

(* ---------- raw offsets ---------- *)

Lemma raw_offset_decompose g off :
  layout_ok g -> l_s_off g <= 1 -> 0 < l_size g -> off < total_sectors g * l_size g ->
  exists x, from_raw_offset off g = Ok (Some (x, off mod l_size g)) /\ on_disk g x /\
    to_raw_offset x g = Some (off - off mod l_size g) /\ off mod l_size g < l_size g.
Proof.
  intros Hg Ho Hz Hoff.
  assert (Hl : off / l_size g < total_sectors g) by (apply N.div_lt_upper_bound; lia).
  destruct (lba_chs_lba g _ Hg Ho Hl) as (x & E & Hx & EL).
  exists x. unfold from_raw_offset. destruct (N.eqb_spec (l_size g) 0); [lia|].
  rewrite E; cbn [obind]. split; [reflexivity|]. split; [auto|].
  split; [|apply N.mod_lt; lia].
  unfold to_raw_offset, layout_contains. destruct Hx as (Hc & Hh & Hs).
  destruct (N.ltb_spec (chs_c x) (l_c g)); [|lia]. destruct (N.ltb_spec (chs_h x) (l_h g)); [|lia].
  destruct (N.ltb_spec (chs_s x - l_s_off g) (l_s g)); [|lia]. cbn [andb].
  rewrite EL. f_equal. pose proof (N.div_mod off (l_size g)). nia.
Qed.

Lemma raw_offset_out g off :
  layout_ok g -> 0 < l_size g -> total_sectors g * l_size g <= off -> from_raw_offset off g = Ok None.
Proof.
  intros Hg Hz Hoff. unfold from_raw_offset. destruct (N.eqb_spec (l_size g) 0); [lia|].
  rewrite from_lba_out; auto. apply N.div_le_lower_bound; lia.
Qed.

Lemma raw_offset_compose g x :
  layout_ok g -> l_s_off g <= 1 -> 0 < l_size g -> on_disk g x ->
  exists off, to_raw_offset x g = Some off /\ off = to_lba x g * l_size g /\
    forall b, b < l_size g -> from_raw_offset (off + b) g = Ok (Some (x, b)).
Proof.
  intros Hg Ho Hz Hx. exists (to_lba x g * l_size g). split; [|split; [reflexivity|]].
  - unfold to_raw_offset, layout_contains. destruct Hx as (Hc & Hh & Hs).
    destruct (N.ltb_spec (chs_c x) (l_c g)); [|lia]. destruct (N.ltb_spec (chs_h x) (l_h g)); [|lia].
    destruct (N.ltb_spec (chs_s x - l_s_off g) (l_s g)); [|lia]. reflexivity.
  - intros b Hb. unfold from_raw_offset. destruct (N.eqb_spec (l_size g) 0); [lia|].
    rewrite N.div_add_l by lia. rewrite N.div_small by lia. rewrite N.add_0_r, chs_lba_chs by auto. cbn [obind].
    rewrite N.add_comm, N.mod_add, N.mod_small by lia. reflexivity.
Qed.

(* ---------- sizes, queries ---------- *)

Lemma n_to_bytes_small n : n <= 6 -> n_to_bytes n = 128 * 2 ^ n /\ bytes_to_n (n_to_bytes n) = n.
Proof.
  intros H.
  assert (Hs : forallb (fun x => (n_to_bytes x =? 128 * 2 ^ x) && (bytes_to_n (n_to_bytes x) =? x)) (Nseq 7) = true)
    by (vm_compute; reflexivity).
  rewrite forallb_forall in Hs. specialize (Hs n). rewrite in_Nseq in Hs.
  specialize (Hs ltac:(lia)). apply andb_prop in Hs as [A B]. lia.
Qed.

Lemma n_to_bytes_mid n : 6 <= n <= 56 -> n_to_bytes n = 8192.
Proof.
  intros H.
  assert (Hs : forallb (fun x => (x <? 6) || (n_to_bytes x =? 8192)) (Nseq 57) = true)
    by (vm_compute; reflexivity).
  rewrite forallb_forall in Hs. specialize (Hs n). rewrite in_Nseq in Hs.
  specialize (Hs ltac:(lia)). lia.
Qed.

Lemma n_to_bytes_max n : n_to_bytes n <= 8192.
Proof. unfold n_to_bytes, MAXIMUM_SECTOR_SIZE. lia. Qed.

Lemma bytes_to_n_loop_spec fuel size n :
  size < 128 * 2 ^ (N.of_nat fuel) ->
  exists k, bytes_to_n_loop fuel size n = n + k /\
    size / 2 ^ k <= 128 /\ (0 < k -> 128 < size / 2 ^ (k - 1)).
Proof.
  revert size n; induction fuel as [|f IH]; intros size n H; cbn [bytes_to_n_loop].
  - exists 0. cbn in H. rewrite N.pow_0_r, N.div_1_r. lia.
  - destruct (N.ltb_spec 128 size) as [Hlt|Hge].
    + rewrite Nat2N.inj_succ, N.pow_succ_r' in H.
      destruct (IH (size / 2) (n + 1)) as (k & E & A & B).
      { apply N.div_lt_upper_bound; lia. }
      exists (k + 1). rewrite E. split; [lia|].
      rewrite N.div_div in A by (try apply N.pow_nonzero; lia).
      rewrite N.add_1_r, N.pow_succ_r'. split; [auto|].
      intros _. replace (N.succ k - 1) with k by lia.
      destruct (N.eq_dec k 0) as [->|Hk]; [rewrite N.pow_0_r, N.div_1_r; auto|].
      specialize (B ltac:(lia)). rewrite N.div_div in B by (try apply N.pow_nonzero; lia).
      rewrite <- N.pow_succ_r' in B. replace (N.succ (k - 1)) with k in B by lia. auto.
    + exists 0. rewrite N.pow_0_r, N.div_1_r. lia.
Qed.

(* bytes_to_n is the smallest n whose shifted size fits 128; for sizes >= 128 it is the n with
   128*2^n <= size < 129*2^n or 128*2^(n-1) < ... *)
Lemma bytes_to_n_spec size :
  size < 2 ^ 64 ->
  size / 2 ^ bytes_to_n size <= 128 /\ (0 < bytes_to_n size -> 128 < size / 2 ^ (bytes_to_n size - 1)).
Proof.
  intros H. unfold bytes_to_n.
  destruct (bytes_to_n_loop_spec 64 size 0) as (k & E & A & B).
  { eapply N.lt_le_trans; [exact H|]. vm_compute; discriminate. }
  rewrite E, N.add_0_l. auto.
Qed.

Lemma query_matches_iff q id :
  query_matches q id = true <->
  q_s q = chsn_s id /\
  (forall c, q_c q = Some c -> c = chsn_c id) /\
  (forall h, q_h q = Some h -> h = chsn_h id) /\
  (forall n, q_n q = Some n -> n = chsn_n id).
Proof.
  unfold query_matches. destruct (N.eqb_spec (q_s q) (chsn_s id)) as [Es|Es]; cbn [negb].
  2:{ split; [discriminate|intros (A & _); congruence]. }
  destruct (q_c q) as [c|]; [destruct (N.eqb_spec c (chsn_c id)) as [Ec|Ec]|]; cbn [negb].
  2:{ split; [discriminate|intros (_ & A & _); exfalso; apply Ec; auto]. }
  all: destruct (q_h q) as [h|]; [destruct (N.eqb_spec h (chsn_h id)) as [Eh|Eh]|]; cbn [negb];
    [|split; [discriminate|intros (_ & _ & A & _); exfalso; apply Eh; auto]|].
  all: destruct (q_n q) as [n|]; [destruct (N.eqb_spec n (chsn_n id)) as [En|En]|]; cbn [negb];
    try (split; [discriminate|intros (_ & _ & _ & A); exfalso; apply En; auto]; fail).
  all: split; auto; intros _; repeat split; auto; intros ? E; congruence.
Qed.

(* ---------- derive_matches ---------- *)

Definition layout_bytes (g : SectorLayout) : N := l_c g * l_h g * l_s g * l_size g.

Lemma insert_by_in {A} (key : A -> N) x l y : In y (insert_by key x l) <-> y = x \/ In y l.
Proof.
  induction l as [|a l IH]; cbn [insert_by In]; [intuition|].
  destruct (key x <? key a); cbn [In]; rewrite ?IH; intuition.
Qed.

Lemma stable_sort_by_in {A} (key : A -> N) l y : In y (stable_sort_by key l) <-> In y l.
Proof.
  unfold stable_sort_by.
  assert (G : forall acc, In y (fold_left (fun acc x => insert_by key x acc) l acc) <-> In y acc \/ In y l).
  { induction l as [|a l IH]; intros acc; cbn [fold_left In]; [intuition|].
    rewrite IH, insert_by_in. intuition. }
  rewrite G; cbn [In]; intuition.
Qed.


Definition valid_cyl (c : N) : Prop := 39 <= c < 45 \/ 79 <= c <= 85.

Lemma derive_candidate_spec total z spt g :
  0 < spt -> spt <= 18 -> In g (derive_candidate total z spt) ->
  l_c g * l_h g * l_s g = total /\ l_size g = z /\ l_s g = spt /\ l_s_off g = 0 /\
  (l_h g = 1 \/ l_h g = 2) /\ valid_cyl (l_c g).
Proof.
  intros H0 H18. unfold derive_candidate, valid_cyl.
  destruct (N.eqb_spec (total mod spt) 0) as [E|E]; cbn [negb]; [|intros []].
  set (tt := total / spt).
  assert (Et : total = spt * tt) by (pose proof (N.div_mod total spt); unfold tt; lia).
  clearbody tt. subst total.
  assert (Htr : exists h, (if tt mod 2 =? 0 then 2 else 1) = h /\ (h = 1 \/ h = 2) /\ h * (tt / h) = tt).
  { destruct (N.eqb_spec (tt mod 2) 0); eexists; (split; [reflexivity|]); split; auto.
    - pose proof (N.div_mod tt 2); lia.
    - rewrite N.div_1_r; lia. }
  destruct Htr as (h & -> & Hh & Eh). set (tr := tt / h) in *. clearbody tr. subst tt.
  destruct (N.leb_spec 39 tr); destruct (N.leb_spec tr 85); cbn [andb]; try (intros []; fail).
  destruct (N.leb_spec 45 tr); destruct (N.ltb_spec tr 79); cbn [andb negb]; try (intros []; fail).
  all: intros [<-|[]]; cbn [l_c l_h l_s l_s_off l_size]; unfold as_u16, as_u8.
  all: rewrite (N.mod_small tr) by lia; rewrite (N.mod_small spt) by lia; rewrite (N.mod_small h) by lia.
  all: repeat split; auto; try lia.
Qed.

Lemma equivalents_spec g e :
  (l_h g = 1 \/ l_h g = 2) -> In e (equivalents g) ->
  layout_bytes e = layout_bytes g /\ l_size e = l_size g /\ l_s e = l_s g /\ l_s_off e = l_s_off g /\
  (l_h e = 1 \/ l_h e = 2).
Proof.
  intros Hh. unfold equivalents, layout_bytes.
  destruct (N.leb_spec 79 (l_c g)); destruct (N.eqb_spec (l_c g mod 2) 0) as [E|E];
  destruct (N.eqb_spec (l_h g) 1) as [H1|H1]; destruct (N.leb_spec (l_c g) 45);
  destruct (N.eqb_spec (l_h g) 2) as [H2|H2]; cbn [andb In]; try lia;
  intros He; repeat destruct He as [<-|He]; try destruct He; cbn [l_c l_h l_s l_s_off l_size]; repeat split; auto.
  - rewrite H1. assert (E2 : l_c g = 2 * (l_c g / 2)) by (pose proof (N.div_mod (l_c g) 2); lia).
    rewrite E2 at 2. ring.
  - rewrite H2. ring.
  - rewrite H2. ring.
Qed.

Lemma derive_matches_sound size z ls :
  derive_matches size z = Ok (Some ls) ->
  ls <> [] /\
  Forall (fun g => layout_bytes g = size /\ l_size g = z /\ 8 <= l_s g <= 18 /\ l_s_off g = 0 /\
                   (l_h g = 1 \/ l_h g = 2)) ls.
Proof.
  unfold derive_matches. destruct (N.eqb_spec z 0); [discriminate|].
  destruct (N.eqb_spec (size mod z) 0) as [Em|Em]; cbn [negb]; [|discriminate].
  set (ms := flat_map (derive_candidate (size / z) z) [8;9;10;11;12;13;14;15;16;17;18]).
  assert (Hms : forall g, In g ms ->
     layout_bytes g = size /\ l_size g = z /\ 8 <= l_s g <= 18 /\ l_s_off g = 0 /\ (l_h g = 1 \/ l_h g = 2)).
  { intros g Hg. apply in_flat_map in Hg as (spt & Hspt & Hg).
    assert (Hr : 8 <= spt <= 18) by (cbn [In] in Hspt; lia).
    apply derive_candidate_spec in Hg as (A & B & C & D & E & _); [|lia|lia].
    unfold layout_bytes. rewrite A, B. repeat split; auto; try lia.
    pose proof (N.div_mod size z). lia. }
  intros H. destruct ms as [|m ms'] eqn:Ems; [discriminate|]. injection H as <-. split.
  - intros Hn.
    assert (Hin : In m (stable_sort_by (fun g => normal_cylinder_distance (l_c g)) (m :: ms')))
      by (apply stable_sort_by_in; left; auto).
    assert (Hm : In m (flat_map equivalents (stable_sort_by (fun g => normal_cylinder_distance (l_c g)) (m :: ms')))).
    { apply in_flat_map. exists m; split; auto. unfold equivalents.
      repeat match goal with |- context [if ?b then _ else _] => destruct b end; left; auto. }
    rewrite Hn in Hm. destruct Hm.
  - apply Forall_forall. intros e He. apply in_flat_map in He as (g & Hg & He).
    apply stable_sort_by_in in Hg. destruct (Hms g Hg) as (A & B & C & D & E).
    apply equivalents_spec in He as (A' & B' & C' & D' & E'); auto. repeat split; auto; try congruence; lia.
Qed.

Lemma derive_matches_complete size z c h s :
  0 < z -> 8 <= s <= 18 -> valid_cyl c -> c * h * s * z = size ->
  (h = 2 \/ (h = 1 /\ (N.odd c = true \/ 79 <= c))) ->
  exists ls, derive_matches size z = Ok (Some ls) /\ In (mkLayout c h s 0 z) ls.
Proof.
  intros Hz Hs Hc Hsize Hh. unfold derive_matches. destruct (N.eqb_spec z 0); [lia|].
  assert (Em : size mod z = 0) by (rewrite <- Hsize; apply N.mod_mul; lia).
  assert (Ed : size / z = c * h * s) by (rewrite <- Hsize; apply N.div_mul; lia).
  rewrite Em, Ed. cbn [negb N.eqb].
  set (ms := flat_map (derive_candidate (c * h * s) z) [8;9;10;11;12;13;14;15;16;17;18]).
  (* the candidate for spt = s *)
  assert (Hcand : exists g, In g (derive_candidate (c * h * s) z s) /\ In (mkLayout c h s 0 z) (equivalents g)).
  { unfold derive_candidate. rewrite N.mod_mul, N.div_mul by lia. cbn [negb N.eqb].
    change (0 =? 0) with true. cbn [negb].
    destruct Hh as [->|[-> Hodd]].
    - replace ((c * 2) mod 2) with 0 by (symmetry; apply N.mod_mul; lia). change (0 =? 0) with true. cbv iota.
      rewrite N.div_mul by lia.
      exists (mkLayout c 2 s 0 z). split.
      + unfold valid_cyl in Hc.
        destruct (N.leb_spec 39 c); destruct (N.leb_spec c 85); destruct (N.leb_spec 45 c); destruct (N.ltb_spec c 79);
          try lia; cbn [andb negb]; left; unfold as_u16, as_u8; rewrite !N.mod_small by lia; reflexivity.
      + unfold equivalents. repeat match goal with |- context [if ?b then _ else _] => destruct b end; left; auto.
    - rewrite N.mul_1_r. destruct (N.eqb_spec (c mod 2) 0) as [E2|E2].
      + assert (79 <= c). { destruct Hodd as [Ho|]; auto. apply N.odd_spec in Ho as [k Hk]. exfalso. dlia. }
        unfold valid_cyl in Hc.
        assert (Hhalf : c = 2 * (c / 2)) by (pose proof (N.div_mod c 2); lia).
        assert (39 <= c / 2 <= 42) by lia.
        exists (mkLayout (c / 2) 2 s 0 z). split.
        * set (k := c / 2) in *. clearbody k.
          destruct (N.leb_spec 39 k); destruct (N.leb_spec k 85); destruct (N.leb_spec 45 k);
          try lia; cbn [andb negb]; left; unfold as_u16, as_u8; rewrite !N.mod_small by lia; reflexivity.
        * unfold equivalents; cbn [l_c l_h l_s l_s_off l_size].
          set (k := c / 2) in *. clearbody k. change (2 =? 1) with false. rewrite andb_false_r.
          destruct (N.leb_spec k 45); [|lia]. change (2 =? 2) with true. cbn [andb].
          right; left. f_equal; lia.
      + rewrite N.div_1_r. exists (mkLayout c 1 s 0 z). split.
        * unfold valid_cyl in Hc.
          destruct (N.leb_spec 39 c); destruct (N.leb_spec c 85); destruct (N.leb_spec 45 c); destruct (N.ltb_spec c 79);
          try lia; cbn [andb negb]; left; unfold as_u16, as_u8; rewrite !N.mod_small by lia; reflexivity.
        * unfold equivalents. repeat match goal with |- context [if ?b then _ else _] => destruct b end; left; auto. }
  destruct Hcand as (g & Hg & He).
  assert (Hgm : In g ms).
  { apply in_flat_map. exists s. split; auto.
    assert (Hin : forallb (fun x => (x <? 8) || existsb (N.eqb x) [8;9;10;11;12;13;14;15;16;17;18]) (Nseq 19) = true)
      by (vm_compute; reflexivity).
    rewrite forallb_forall in Hin. specialize (Hin s). rewrite in_Nseq in Hin. specialize (Hin ltac:(lia)).
    apply orb_prop in Hin as [Hin|Hin]; [lia|]. apply existsb_exists in Hin as (y & Hy & Ey).
    apply N.eqb_eq in Ey. subst; auto. }
  destruct ms as [|m ms'] eqn:Ems; [destruct Hgm|].
  eexists; split; [reflexivity|]. apply in_flat_map. exists g; split; auto. apply stable_sort_by_in; auto.
Qed.
