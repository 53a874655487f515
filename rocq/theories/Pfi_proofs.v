(* Pfi_proofs.v - the data of PFI tracks. *)
From Verif Require Import Base Base_lemmas Chs_model BitRing_model Mfm_model Types_model System34_model MetaSector_model BitStream_model
  DiskImage_model Pll_model Flux_model Flux_spec OddEven_proofs Pce_model Pfi_model Pfi_spec.
From Coq Require Import Lia.
Import ListNotations.
Local Open Scope nat_scope.

Lemma total_app a b : total (a ++ b) = (total a + total b)%N.
Proof. induction a as [|x a IH]; [reflexivity|]. cbn [app total fold_right]. fold (total (a ++ b)) (total a). rewrite IH. lia. Qed.
Lemma lor_shift x y k : (y < 2 ^ k)%N -> N.lor (N.shiftl x k) y = (x * 2 ^ k + y)%N.
Proof. intros H. symmetry. apply glue_lor. exact H. Qed.
Lemma two_b x y : (y < 256)%N -> N.lor (N.shiftl x 8) y = (256 * x + y)%N.
Proof. intros H. rewrite lor_shift by exact H. change (2 ^ 8)%N with 256%N. lia. Qed.
Lemma three_b x y z : (y < 256)%N -> (z < 256)%N -> N.lor (N.lor (N.shiftl x 16) (N.shiftl y 8)) z = (65536 * x + 256 * y + z)%N.
Proof.
  intros Hy Hz. replace (N.lor (N.shiftl x 16) (N.shiftl y 8)) with (N.shiftl (256 * x + y) 8).
  - rewrite two_b by exact Hz. lia.
  - rewrite <- two_b by exact Hy. rewrite N.shiftl_lor, N.shiftl_shiftl. reflexivity.
Qed.
Lemma four_b x y z w : (y < 256)%N -> (z < 256)%N -> (w < 256)%N -> N.lor (N.lor (N.lor (N.shiftl x 24) (N.shiftl y 16)) (N.shiftl z 8)) w = (16777216 * x + 65536 * y + 256 * z + w)%N.
Proof.
  intros Hy Hz Hw. replace (N.lor (N.lor (N.shiftl x 24) (N.shiftl y 16)) (N.shiftl z 8)) with (N.shiftl (65536 * x + 256 * y + z) 8).
  - rewrite two_b by exact Hw. lia.
  - rewrite <- three_b by assumption. rewrite !N.shiftl_lor, !N.shiftl_shiftl. reflexivity.
Qed.
Lemma code_run c t rest : code_of c t -> exists b c', c = b :: c' /\ pfi_code b (c' ++ rest) = Ok (t, rest).
Proof.
  intros H. destruct H as [b Hb|b x Hb Hx|x y Hx Hy|x y z Hx Hy Hz|x y z w Hx Hy Hz Hw]; (eexists; eexists; split; [reflexivity|]); unfold pfi_code; cbn [app].
  - replace (b =? 0)%N with false by (symmetry; apply N.eqb_neq; lia). replace (b =? 1)%N with false by (symmetry; apply N.eqb_neq; lia).
    replace (b =? 2)%N with false by (symmetry; apply N.eqb_neq; lia). replace (b =? 3)%N with false by (symmetry; apply N.eqb_neq; lia).
    replace (b <? 8)%N with false by (symmetry; apply N.ltb_ge; lia). reflexivity.
  - replace (b =? 0)%N with false by (symmetry; apply N.eqb_neq; lia). replace (b =? 1)%N with false by (symmetry; apply N.eqb_neq; lia).
    replace (b =? 2)%N with false by (symmetry; apply N.eqb_neq; lia). replace (b =? 3)%N with false by (symmetry; apply N.eqb_neq; lia).
    replace (b <? 8)%N with true by (symmetry; apply N.ltb_lt; lia). cbn [Hxc_model.read_u8 obind]. rewrite two_b by exact Hx. reflexivity.
  - change (1 =? 0)%N with false. change (1 =? 1)%N with true. cbn [Hxc_model.read_u8 obind]. rewrite two_b by exact Hy. reflexivity.
  - change (2 =? 0)%N with false. change (2 =? 1)%N with false. change (2 =? 2)%N with true. cbn [Hxc_model.read_u8 obind]. rewrite three_b by assumption. reflexivity.
  - change (3 =? 0)%N with false. change (3 =? 1)%N with false. change (3 =? 2)%N with false. change (3 =? 3)%N with true. cbn [Hxc_model.read_u8 obind]. rewrite four_b by assumption. reflexivity.
Qed.
Lemma bytes_cons b l : bytes_ok (b :: l) = true -> (b < 256)%N /\ bytes_ok l = true.
Proof. unfold bytes_ok. cbn [forallb]. intros H. apply Bool.andb_true_iff in H. destruct H as [A B]. split; [apply N.ltb_lt; exact A|exact B]. Qed.
Lemma code_inv b rest t rest' : bytes_ok (b :: rest) = true -> pfi_code b rest = Ok (t, rest') ->
  exists c, code_of (b :: c) t /\ rest = c ++ rest' /\ bytes_ok rest' = true.
Proof.
  intros Hb E. apply bytes_cons in Hb as [B R]. unfold pfi_code in E.
  destruct (N.eqb_spec b 0) as [|N0]; [discriminate|]. destruct (N.eqb_spec b 1) as [->|N1].
  { destruct rest as [|x [|y rest]]; try discriminate. cbn [Hxc_model.read_u8 obind] in E. injection E as <- <-. apply bytes_cons in R as [X R]. apply bytes_cons in R as [Y R].
    exists [x; y]. rewrite two_b by exact Y. split; [constructor; assumption|]. split; [reflexivity|exact R]. }
  destruct (N.eqb_spec b 2) as [->|N2].
  { destruct rest as [|x [|y [|z rest]]]; try discriminate. cbn [Hxc_model.read_u8 obind] in E. injection E as <- <-. apply bytes_cons in R as [X R]. apply bytes_cons in R as [Y R]. apply bytes_cons in R as [Z R].
    exists [x; y; z]. rewrite three_b by assumption. split; [constructor; assumption|]. split; [reflexivity|exact R]. }
  destruct (N.eqb_spec b 3) as [->|N3].
  { destruct rest as [|x [|y [|z [|w rest]]]]; try discriminate. cbn [Hxc_model.read_u8 obind] in E. injection E as <- <-. apply bytes_cons in R as [X R]. apply bytes_cons in R as [Y R]. apply bytes_cons in R as [Z R]. apply bytes_cons in R as [W R].
    exists [x; y; z; w]. rewrite four_b by assumption. split; [constructor; assumption|]. split; [reflexivity|exact R]. }
  destruct (N.ltb_spec b 8) as [L|L].
  { destruct rest as [|x rest]; try discriminate. cbn [Hxc_model.read_u8 obind] in E. injection E as <- <-. apply bytes_cons in R as [X R].
    exists [x]. rewrite two_b by exact X. split; [constructor; [lia|exact X]|]. split; [reflexivity|exact R]. }
  injection E as <- <-. exists []. split; [constructor; lia|]. split; [reflexivity|exact R].
Qed.
Lemma code_no_panic b rest : pfi_code b rest <> Panic.
Proof.
  unfold pfi_code. repeat (match goal with |- context [if ?c then _ else _] => destruct c end; [|]); try discriminate;
  repeat (destruct rest as [|? rest]; cbn [Hxc_model.read_u8 obind]; try discriminate).
Qed.
(* ---- cuts ---- *)
Lemma cuts_here times lim from x index js : cuts times lim from (x :: index) js -> from < lim -> (x <= clock_at times from)%N ->
  exists js', js = from :: js' /\ cuts times lim (S from) index js'.
Proof.
  intros H L C. inversion H as [|? ? ? A|? ? ? j js' A B D E]; subst.
  - specialize (A from ltac:(lia)). lia.
  - destruct (Nat.eq_dec from j) as [->|Dj]; [exists js'; split; [reflexivity|exact E]|]. specialize (B from ltac:(lia)). lia.
Qed.
Lemma cuts_later times lim from x index js : cuts times lim from (x :: index) js -> (clock_at times from < x)%N -> cuts times lim (S from) (x :: index) js.
Proof.
  intros H C. inversion H as [|? ? ? A|? ? ? j js' A B D E]; subst.
  - apply cuts_out. intros j Hj. apply A. lia.
  - apply cuts_at; [|intros i Hi; apply B; lia|exact D|exact E]. assert (from <> j) by (intros ->; lia). lia.
Qed.
Lemma cuts_earlier times lim from x index js : cuts times lim (S from) (x :: index) js -> (clock_at times from < x)%N -> cuts times lim from (x :: index) js.
Proof.
  intros H C. inversion H as [|? ? ? A|? ? ? j js' A B D E]; subst.
  - apply cuts_out. intros j Hj. destruct (Nat.eq_dec j from) as [->|Dj]; [exact C|apply A; lia].
  - apply cuts_at; [lia| |exact D|exact E]. intros i Hi. destruct (Nat.eq_dec i from) as [->|Dj]; [exact C|apply B; lia].
Qed.
Lemma cuts_none times lim from index js : cuts times lim from index js -> lim <= from -> js = [].
Proof. intros H L. inversion H as [|? ? ? A|? ? ? j js' A B D E]; subst; [reflexivity|reflexivity|lia]. Qed.
Lemma stretches_app ts p0 j r : length p0 <= 1 -> stretches ts (p0 ++ j :: r) = stretches ts (p0 ++ [j]) ++ stretches ts (j :: r).
Proof. destruct p0 as [|p [|q l]]; cbn [length]; intros H; [reflexivity|reflexivity|lia]. Qed.
Lemma clock_pre pre l : clock_at (pre ++ l) (length pre) = total pre.
Proof. unfold clock_at. rewrite firstn_app, Nat.sub_diag, firstn_O, app_nil_r, firstn_all. reflexivity. Qed.

(* the state after the transitions `pre` *)
Definition borders (cur : option (list N)) (pre : list N) (last : N) (p0 : list nat) : Prop :=
  match cur with
  | None => p0 = []
  | Some l => exists p, p0 = [p] /\ p <= length pre /\ l = skipn p pre /\ last = total (firstn p pre)
  end.
Lemma close_ok cur pre last p0 done more : borders cur pre last p0 ->
  pfi_close done cur (total pre - last) = done ++ stretches (pre ++ more) (p0 ++ [length pre]).
Proof.
  intros H. destruct cur as [l|]; cbn [borders] in H.
  - destruct H as (p & -> & Hp & -> & ->). cbn [pfi_close app stretches]. do 3 f_equal.
    + rewrite skipn_app. replace (p - length pre) with 0 by lia. cbn [skipn]. rewrite firstn_app, skipn_length, Nat.sub_diag, firstn_O, app_nil_r.
      symmetry. apply firstn_all2. rewrite skipn_length. lia.
    + rewrite skipn_app. replace (p - length pre) with 0 by lia. cbn [skipn]. rewrite firstn_app, skipn_length, Nat.sub_diag, firstn_O, app_nil_r.
      rewrite (firstn_all2 (skipn p pre)) by (rewrite skipn_length; lia). rewrite <- (firstn_skipn p pre) at 1. rewrite total_app. lia.
  - subst p0. cbn. rewrite app_nil_r. reflexivity.
Qed.
Lemma borders_grow cur pre last p0 t : borders cur pre last p0 -> borders (option_map (fun ts => ts ++ [t]) cur) (pre ++ [t]) last p0.
Proof.
  destruct cur as [l|]; cbn [borders option_map]; [|auto]. intros (p & -> & Hp & -> & ->). exists p. split; [reflexivity|]. split; [rewrite app_length; cbn; lia|].
  rewrite skipn_app, firstn_app. replace (p - length pre) with 0 by lia. cbn [skipn firstn]. rewrite app_nil_r. split; reflexivity.
Qed.
Lemma borders_cut pre t : borders (Some [t]) (pre ++ [t]) (total pre) [length pre].
Proof.
  exists (length pre). split; [reflexivity|]. split; [rewrite app_length; lia|]. rewrite skipn_app, firstn_app, Nat.sub_diag, skipn_all, firstn_all, firstn_O, app_nil_r. split; reflexivity.
Qed.
Lemma last_cons (j k : nat) js : js <> [] -> last (j :: js) k = last js k.
Proof. destruct js; [congruence|reflexivity]. Qed.
Definition ending (ts tail : list N) (lim : nat) (js : list nat) (n : nat) : Prop :=
  tail = [] /\ lim = length ts \/ tail <> [] /\ lim = length ts + 1 /\ length js = n /\ last js 0 = length ts.
Lemma loop_ok tail lim : forall codes fuel pre next more js done cur lst p0,
  Forall (fun c => code_of (fst c) (snd c)) codes -> length (concat (map fst codes) ++ tail) <= fuel -> (total (pre ++ map snd codes) < 2 ^ 32)%N ->
  cuts (pre ++ map snd codes) lim (length pre) (next :: more) js -> ending (pre ++ map snd codes) tail lim js (S (length more)) ->
  borders cur pre lst p0 ->
  pfi_loop fuel (concat (map fst codes) ++ tail) next more (total pre) lst done cur =
  Ok (done ++ stretches (pre ++ map snd codes) (p0 ++ if length js =? S (length more) then js else js ++ [length (pre ++ map snd codes)])).
Proof.
  assert (P1 : forall cur pre lst p0, borders cur pre lst p0 -> length p0 <= 1).
  { intros cur pre lst p0 H. destruct cur; cbn [borders] in H; [destruct H as (p & -> & _); cbn; lia|subst; cbn; lia]. }
  induction codes as [|[c t] codes IH]; intros fuel pre next more js done cur lst p0 HC HF HT HJ HE HB.
  - cbn [map concat app snd] in *. rewrite app_nil_r in HT, HJ, HE |- *. destruct tail as [|b tail].
    + destruct HE as [[_ ->]|[X _]]; [|congruence]. apply cuts_none in HJ; [|lia]. subst js. cbn [length app Nat.eqb].
      replace (match fuel with 0%nat | _ => Ok (pfi_close done cur (total pre - lst)) end) with (Ok (A := list Rev) (pfi_close done cur (total pre - lst))) by (destruct fuel; reflexivity).
      destruct fuel; cbn [pfi_loop]; rewrite (close_ok cur pre lst p0 done [] HB), app_nil_r; reflexivity.
    + destruct HE as [[X _]|(_ & -> & L & La)]; [congruence|]. inversion HJ as [|? ? ? A|? ? ? j js' A B D E]; subst; [cbn in L; lia|].
      assert (j = length pre) by lia. subst j. apply cuts_none in E; [|lia]. subst js'. destruct more; [|cbn in L; lia].
      assert (Cl : clock_at pre (length pre) = total pre) by (pose proof (clock_pre pre []) as Q; rewrite app_nil_r in Q; exact Q). rewrite Cl in D.
      destruct fuel as [|fuel]; [cbn in HF; lia|]. cbn [pfi_loop]. replace (next <=? total pre)%N with true by (symmetry; apply N.leb_le; exact D). cbn [length Nat.eqb].
      rewrite (close_ok cur pre lst p0 done [] HB), app_nil_r. reflexivity.
  - pose proof (Forall_inv HC) as C1. pose proof (Forall_inv_tail HC) as C2. cbn [fst snd] in C1. destruct (code_run c t (concat (map fst codes) ++ tail) C1) as (b & c' & -> & Ec).
    cbn [map concat snd fst] in *. rewrite <- app_assoc in HF |- *. change ((b :: c') ++ concat (map fst codes) ++ tail) with (b :: (c' ++ (concat (map fst codes) ++ tail))) in HF |- *.
    destruct fuel as [|fuel]; [cbn in HF; lia|]. cbn [pfi_loop].
    assert (Ets : pre ++ t :: map snd codes = (pre ++ [t]) ++ map snd codes) by (rewrite <- app_assoc; reflexivity).
    assert (Hl : length pre < lim).
    { destruct HE as [[_ ->]|(_ & -> & _)]; rewrite app_length; cbn [length]; lia. }
    assert (HF2 : length (concat (map fst codes) ++ tail) <= fuel) by (cbn [length] in HF; rewrite (app_length c') in HF; lia).
    assert (HT2 : (0x100000000 <=? total pre + t)%N = false).
    { apply N.leb_gt. rewrite Ets, total_app, total_app in HT. unfold total at 2 in HT. cbn [fold_right] in HT. change (2 ^ 32)%N with 0x100000000%N in HT. lia. }
    assert (Etot : (total pre + t)%N = total (pre ++ [t])) by (rewrite total_app; unfold total at 3; cbn [fold_right]; lia).
    destruct (N.leb_spec next (total pre)) as [L|L].
    + destruct (cuts_here _ _ _ _ _ _ HJ Hl) as (js' & -> & HJ'); [rewrite clock_pre; exact L|].
      destruct more as [|x more].
      * inversion HJ'; subst. cbn [length Nat.eqb]. rewrite (close_ok cur pre lst p0 done (t :: map snd codes) HB). reflexivity.
      * rewrite Ec. cbn [obind]. rewrite HT2, Etot. rewrite (close_ok cur pre lst p0 done (t :: map snd codes) HB). rewrite Ets in *.
        replace (S (length pre)) with (length (pre ++ [t])) in HJ' by (rewrite app_length; cbn; lia).
        rewrite (IH fuel (pre ++ [t]) x more js' _ (Some [t]) (total pre) [length pre] C2 HF2 HT HJ').
        -- change (length (x :: more)) with (S (length more)). change (length (length pre :: js') =? S (S (length more))) with (length js' =? S (length more)). rewrite <- (app_assoc done). do 2 f_equal.
           transitivity (stretches ((pre ++ [t]) ++ map snd codes) (p0 ++ length pre :: (if length js' =? S (length more) then js' else js' ++ [length ((pre ++ [t]) ++ map snd codes)]))).
           ++ symmetry. rewrite (stretches_app _ p0 (length pre)) by (eapply P1; exact HB). reflexivity.
           ++ destruct (length js' =? S (length more)); reflexivity.
        -- destruct HE as [HE|(A1 & A2 & A3 & A4)]; [left; exact HE|right]. split; [exact A1|]. split; [exact A2|]. cbn [length] in A3. split; [lia|]. rewrite last_cons in A4; [exact A4|]. destruct js'; [cbn in A3; lia|discriminate].
        -- apply borders_cut.
    + rewrite Ec. cbn [obind]. rewrite HT2, Etot. apply cuts_later in HJ; [|rewrite clock_pre; exact L]. rewrite Ets in *.
      replace (S (length pre)) with (length (pre ++ [t])) in HJ by (rewrite app_length; cbn; lia).
      rewrite (IH fuel (pre ++ [t]) next more js done _ lst p0 C2 HF2 HT HJ HE); [reflexivity|]. apply borders_grow. exact HB.
Qed.
Lemma loop_inv : forall fuel data pre next more done cur lst revs, bytes_ok data = true -> (total pre < 2 ^ 32)%N ->
  pfi_loop fuel data next more (total pre) lst done cur = Ok revs ->
  exists codes tail lim js, Forall (fun c => code_of (fst c) (snd c)) codes /\ data = concat (map fst codes) ++ tail /\ (total (pre ++ map snd codes) < 2 ^ 32)%N /\
    cuts (pre ++ map snd codes) lim (length pre) (next :: more) js /\ ending (pre ++ map snd codes) tail lim js (S (length more)).
Proof.
  assert (Stop : forall pre next more, exists lim js, (total pre < 2 ^ 32)%N -> cuts (pre ++ map snd (@nil (list N * N))) lim (length pre) (next :: more) js /\ ending (pre ++ map snd (@nil (list N * N))) [] lim js (S (length more))).
  { intros pre next more. exists (length pre), []. intros _. cbn [map]. rewrite app_nil_r. split; [apply cuts_out; intros j Hj; lia|]. left. split; reflexivity. }
  induction fuel as [|fuel IH]; intros data pre next more done cur lst revs HB HP E; destruct data as [|b rest]; cbn [pfi_loop] in E; try discriminate.
  - destruct (Stop pre next more) as (lim & js & H). destruct (H HP) as [H1 H2]. exists [], [], lim, js. split; [constructor|]. split; [reflexivity|]. cbn [map] in *. split; [rewrite app_nil_r; exact HP|]. split; assumption.
  - destruct (Stop pre next more) as (lim & js & H). destruct (H HP) as [H1 H2]. exists [], [], lim, js. split; [constructor|]. split; [reflexivity|]. cbn [map] in *. split; [rewrite app_nil_r; exact HP|]. split; assumption.
  - assert (Next : forall t rest', pfi_code b rest = Ok (t, rest') -> (0x100000000 <=? total pre + t)%N = false ->
       exists c, code_of (b :: c) t /\ rest = c ++ rest' /\ bytes_ok rest' = true /\ (total pre + t)%N = total (pre ++ [t]) /\ (total (pre ++ [t]) < 2 ^ 32)%N).
    { intros t rest' Ec HT. destruct (code_inv b rest t rest' HB Ec) as (c & A1 & A2 & A3). exists c. split; [exact A1|]. split; [exact A2|]. split; [exact A3|].
      assert (Q : (total pre + t)%N = total (pre ++ [t])) by (rewrite total_app; unfold total at 3; cbn [fold_right]; lia). split; [exact Q|]. rewrite <- Q. apply N.leb_gt in HT. exact HT. }
    assert (Ets : forall t (codes : list (list N * N)), pre ++ t :: map snd codes = (pre ++ [t]) ++ map snd codes) by (intros; rewrite <- app_assoc; reflexivity).
    destruct (N.leb_spec next (total pre)) as [L|L].
    + destruct more as [|x more].
      * exists [], (b :: rest), (length pre + 1), [length pre]. split; [constructor|]. split; [reflexivity|]. cbn [map]. rewrite app_nil_r. split; [exact HP|]. split.
        -- apply cuts_at; [lia|intros i Hi; lia| |apply cuts_nil]. pose proof (clock_pre pre []) as Q. rewrite app_nil_r in Q. rewrite Q. exact L.
        -- right. split; [discriminate|]. split; [reflexivity|]. split; reflexivity.
      * destruct (pfi_code b rest) as [[t rest']| |] eqn:Ec; try discriminate. cbn [obind] in E. destruct (0x100000000 <=? total pre + t)%N eqn:HT; [discriminate|].
        destruct (Next t rest' eq_refl HT) as (c & A1 & -> & A3 & Q & A4). rewrite Q in E. destruct (IH _ _ _ _ _ _ _ _ A3 A4 E) as (codes & tail & lim & js & B1 & -> & B3 & B4 & B5).
        exists ((b :: c, t) :: codes), tail, lim, (length pre :: js). split; [constructor; assumption|]. split; [cbn [map concat fst app]; rewrite <- app_assoc; reflexivity|].
        cbn [map snd]. rewrite Ets. split; [exact B3|]. split.
        -- apply cuts_at; [|intros i Hi; lia| |].
           ++ split; [lia|]. destruct B5 as [[_ ->]|(_ & -> & _)]; rewrite !app_length; cbn [length]; lia.
           ++ rewrite <- Ets, clock_pre. exact L.
           ++ rewrite app_length in B4. cbn [length] in B4. rewrite Nat.add_1_r in B4. exact B4.
        -- destruct B5 as [B5|(F1 & F2 & F3 & F4)]; [left; exact B5|right]. split; [exact F1|]. split; [exact F2|]. cbn [length]. split; [lia|]. rewrite last_cons; [exact F4|]. destruct js; [cbn in F3; lia|discriminate].
    + destruct (pfi_code b rest) as [[t rest']| |] eqn:Ec; try discriminate. cbn [obind] in E. destruct (0x100000000 <=? total pre + t)%N eqn:HT; [discriminate|].
      destruct (Next t rest' eq_refl HT) as (c & A1 & -> & A3 & Q & A4). rewrite Q in E. destruct (IH _ _ _ _ _ _ _ _ A3 A4 E) as (codes & tail & lim & js & B1 & -> & B3 & B4 & B5).
      exists ((b :: c, t) :: codes), tail, lim, js. split; [constructor; assumption|]. split; [cbn [map concat fst app]; rewrite <- app_assoc; reflexivity|].
      cbn [map snd]. rewrite Ets. split; [exact B3|]. split; [|exact B5]. apply cuts_earlier; [|rewrite <- Ets, clock_pre; exact L]. rewrite app_length in B4. cbn [length] in B4. rewrite Nat.add_1_r in B4. exact B4.
Qed.
Lemma code_shorter b rest t rest' : bytes_ok (b :: rest) = true -> pfi_code b rest = Ok (t, rest') -> length rest' <= length rest.
Proof. intros HB E. destruct (code_inv b rest t rest' HB E) as (c & _ & -> & _). rewrite app_length. lia. Qed.
Lemma loop_panic : forall fuel data pre next more done cur lst, bytes_ok data = true -> length data <= fuel ->
  pfi_loop fuel data next more (total pre) lst done cur = Panic ->
  exists codes tail, Forall (fun c => code_of (fst c) (snd c)) codes /\ data = concat (map fst codes) ++ tail /\ (2 ^ 32 <= total (pre ++ map snd codes))%N.
Proof.
  induction fuel as [|fuel IH]; intros data pre next more done cur lst HB HF E; destruct data as [|b rest]; cbn [pfi_loop] in E; try discriminate; [cbn in HF; lia|].
  assert (Go : forall t rest' x m l dn cr, pfi_code b rest = Ok (t, rest') -> (if (0x100000000 <=? total pre + t)%N then Panic else pfi_loop fuel rest' x m (total pre + t) l dn cr) = Panic ->
    exists codes tail, Forall (fun c => code_of (fst c) (snd c)) codes /\ b :: rest = concat (map fst codes) ++ tail /\ (2 ^ 32 <= total (pre ++ map snd codes))%N).
  { intros t rest' x m l dn cr Ec E2. destruct (code_inv b rest t rest' HB Ec) as (c & A1 & -> & A3). assert (Q : (total pre + t)%N = total (pre ++ [t])) by (rewrite total_app; unfold total at 3; cbn [fold_right]; lia).
    destruct (N.leb_spec 0x100000000 (total pre + t)) as [L|L].
    - exists [(b :: c, t)], rest'. split; [constructor; [exact A1|constructor]|]. split; [cbn; rewrite app_nil_r; reflexivity|]. cbn [map snd]. rewrite <- Q. exact L.
    - rewrite Q in E2. cbn [length] in HF. rewrite app_length in HF. destruct (IH rest' (pre ++ [t]) x m dn cr l A3 ltac:(lia) E2) as (codes & tail & B1 & -> & B3).
      exists ((b :: c, t) :: codes), tail. split; [constructor; assumption|]. split; [cbn [map concat fst app]; rewrite <- app_assoc; reflexivity|]. cbn [map snd]. rewrite <- app_assoc in B3. exact B3. }
  destruct (N.leb_spec next (total pre)) as [L|L].
  - destruct more as [|x more]; [discriminate|]. destruct (pfi_code b rest) as [[t rest']| |] eqn:Ec; [|discriminate|exfalso; exact (code_no_panic _ _ Ec)].
    cbn [obind] in E. exact (Go _ _ _ _ _ _ _ eq_refl E).
  - destruct (pfi_code b rest) as [[t rest']| |] eqn:Ec; [|discriminate|exfalso; exact (code_no_panic _ _ Ec)].
    cbn [obind] in E. exact (Go _ _ _ _ _ _ _ eq_refl E).
Qed.
Lemma data_ok data index revs : pfi_revolutions data index revs -> pfi_track_data data index = Ok revs.
Proof.
  intros (Hi & read & times & tail & js & -> & (codes & HC & -> & ->) & HT & HE & ->). destruct index as [|x more]; [congruence|]. unfold pfi_track_data.
  destruct HE as [(-> & HJ)|(Ht & HJ & Hl & Hla)].
  - exact (loop_ok [] _ codes _ [] x more js [] None 0%N [] HC (le_n _) HT HJ (or_introl (conj eq_refl eq_refl)) eq_refl).
  - refine (loop_ok tail _ codes _ [] x more js [] None 0%N [] HC (le_n _) HT HJ _ eq_refl). right. split; [exact Ht|]. split; [reflexivity|]. split; [exact Hl|exact Hla].
Qed.
Lemma data_inv data index revs : bytes_ok data = true -> pfi_track_data data index = Ok revs -> pfi_revolutions data index revs.
Proof.
  intros HB E. destruct index as [|x more]; [discriminate|]. unfold pfi_track_data in E. pose proof E as E0.
  change 0%N with (total []) in E at 1. destruct (loop_inv _ _ [] _ _ _ _ _ _ HB ltac:(reflexivity) E) as (codes & tail & lim & js & H1 & H2 & H3 & H4 & H5). cbn [app length] in H3, H4, H5.
  assert (R : pfi_revolutions data (x :: more) (stretches (map snd codes) (if length js =? length (x :: more) then js else js ++ [length (map snd codes)]))).
  { split; [discriminate|]. exists (concat (map fst codes)), (map snd codes), tail, js. split; [exact H2|]. split; [exists codes; auto|]. split; [exact H3|]. split; [|reflexivity].
    destruct H5 as [(-> & ->)|(A & -> & B & C)]; [left; auto|right; auto]. }
  pose proof (data_ok _ _ _ R) as E1. unfold pfi_track_data in E1. rewrite E0 in E1. injection E1 as ->. exact R.
Qed.
Lemma data_panic data index : bytes_ok data = true -> pfi_track_data data index = Panic ->
  exists read tail times, data = read ++ tail /\ coded read times /\ (2 ^ 32 <= total times)%N.
Proof.
  intros HB E. destruct index as [|x more]; [discriminate|]. unfold pfi_track_data in E. change 0%N with (total []) in E at 1.
  destruct (loop_panic _ _ [] _ _ _ _ _ HB (le_n _) E) as (codes & tail & H1 & H2 & H3). exists (concat (map fst codes)), tail, (map snd codes). split; [exact H2|]. split; [exists codes; auto|exact H3].
Qed.
