(* Lzw_proofs.v *)
From Verif Require Import Base Base_lemmas BitRing_proofs Huff_model Huff_proofs Huffd_proofs Lzw_model Lzw_spec.
Import ListNotations.
Open Scope nat_scope.

(* ---- bits ---- *)
Definition lleft (s : bitsrc) : list bool := skipn (b_ptr s) (b_bits s) ++ flat_map lsb_bits (b_rest s).
Lemma lget_bit_ok s : src_ok s ->
  match lleft s with
  | [] => lzw_get_bit s = None
  | b :: r => exists s', lzw_get_bit s = Some (b, s') /\ lleft s' = r /\ src_ok s'
  end.
Proof.
  intros Hs. unfold lzw_get_bit, lleft, src_ok in *. destruct (nth_error (b_bits s) (b_ptr s)) as [b|] eqn:E.
  - rewrite (skipn_cons _ _ _ E). cbn [app]. eexists. split; [reflexivity|]. cbn [b_bits b_ptr b_rest]. split; [reflexivity|].
    assert (nth_error (b_bits s) (b_ptr s) <> None) by congruence. apply nth_error_Some in H. lia.
  - apply nth_error_None in E. rewrite (skipn_all2 (b_bits s)) by exact E. cbn [app]. assert (b_ptr s = length (b_bits s)) as EP by lia.
    destruct (b_rest s) as [|y rest]; [reflexivity|]. cbn [flat_map].
    destruct (512 <? length (b_bits s)).
    + cbn [app]. change (lsb_bits y) with (N.testbit y 0 :: skipn 1 (lsb_bits y)). cbn [nth_error app].
      eexists. split; [reflexivity|]. cbn [b_bits b_ptr b_rest skipn length]. split; [reflexivity|lia].
    + assert (X : nth_error (b_bits s ++ lsb_bits y) (b_ptr s) = Some (N.testbit y 0)). { rewrite EP, nth_error_app2, Nat.sub_diag by lia. reflexivity. }
      rewrite X. change (lsb_bits y) with (N.testbit y 0 :: skipn 1 (lsb_bits y)) at 1. cbn [app].
      eexists. split; [reflexivity|]. cbn [b_bits b_ptr b_rest]. split; [|rewrite app_length; cbn [lsb_bits map seq length]; lia].
      rewrite (skipn_app _ (b_bits s)), skipn_all2 by lia. cbn [app]. replace (S (b_ptr s) - length (b_bits s)) with 1 by lia. reflexivity.
Qed.
Lemma code_loop_ok num : forall i ans s, src_ok s ->
  (length (lleft s) < num -> get_code_loop num i ans s = None) /\
  (num <= length (lleft s) -> exists v s', get_code_loop num i ans s = Some (v, s') /\ lleft s' = skipn num (lleft s) /\ src_ok s' /\
     forall k, N.testbit v k = N.testbit ans k || ((i <=? k)%N && nth (N.to_nat (k - i)) (firstn num (lleft s)) false)).
Proof.
  induction num as [|num IH]; intros i ans s Hs; cbn [get_code_loop].
  - split; [lia|]. intros _. exists ans, s. split; [reflexivity|]. split; [reflexivity|]. split; [exact Hs|]. intros k. rewrite firstn_O.
    destruct (N.to_nat (k - i)); cbn [nth]; rewrite andb_false_r, orb_false_r; reflexivity.
  - pose proof (lget_bit_ok s Hs) as G. destruct (lleft s) as [|b r] eqn:E.
    + rewrite G. cbn [length]. split; [reflexivity|lia].
    + destruct G as [s1 [G1 [G2 G3]]]. rewrite G1. destruct (IH (i + 1)%N (N.lor ans (N.shiftl (b2N b) i)) s1 G3) as [I1 I2]. rewrite G2 in I1, I2. cbn [length]. split.
      * intros L. apply I1. lia.
      * intros L. destruct (I2 ltac:(lia)) as [v [s' [J1 [J2 [J3 J4]]]]]. exists v, s'. split; [exact J1|]. split; [exact J2|]. split; [exact J3|].
        intros k. rewrite J4, N.lor_spec, <- orb_assoc. f_equal. cbn [firstn].
        destruct (N.leb_spec i k) as [C|C].
        -- rewrite N.shiftl_spec_high by (try lia). destruct (N.eq_dec k i) as [->|Ne].
           ++ rewrite N.sub_diag. cbn [N.to_nat nth andb]. destruct (N.leb_spec (i + 1) i); [lia|]. cbn [andb]. rewrite orb_false_r. destruct b; reflexivity.
           ++ destruct (N.leb_spec (i + 1) k); [|lia]. cbn [andb]. replace (N.to_nat (k - i)) with (S (N.to_nat (k - (i + 1)))) by lia. cbn [nth].
              replace (N.testbit (b2N b) (k - i)) with false; [reflexivity|]. symmetry. destruct b; cbn [b2N]; [|apply N.bits_0]. apply N.bits_above_log2. cbn. lia.
        -- rewrite N.shiftl_spec_low by exact C. destruct (N.leb_spec (i + 1) k); [lia|]. reflexivity.
Qed.
Lemma lsb_length n v : length (lsb n v) = n.
Proof. unfold lsb. rewrite map_length, seq_length. reflexivity. Qed.
Lemma nth_lsb n v k : k < n -> nth k (lsb n v) false = N.testbit v (N.of_nat k).
Proof.
  intros H. unfold lsb. rewrite (nth_indep _ false (N.testbit v (N.of_nat 0))) by (rewrite map_length, seq_length; exact H).
  rewrite (map_nth (fun k => N.testbit v (N.of_nat k))), seq_nth by exact H. reflexivity.
Qed.
Lemma lsb_inj n v v' : (v < 2 ^ N.of_nat n)%N -> (v' < 2 ^ N.of_nat n)%N -> lsb n v = lsb n v' -> v = v'.
Proof.
  intros H H' E. apply N.bits_inj. intros k. destruct (N.lt_ge_cases k (N.of_nat n)) as [C|C].
  - pose proof (nth_lsb n v (N.to_nat k) ltac:(lia)) as A. pose proof (nth_lsb n v' (N.to_nat k) ltac:(lia)) as B. rewrite N2Nat.id in A, B. rewrite <- A, <- B, E. reflexivity.
  - assert (Z : forall x, (x < 2 ^ N.of_nat n)%N -> N.testbit x k = false).
    { intros x Hx. destruct (N.eq_dec x 0) as [->|]; [apply N.bits_0|]. apply N.bits_above_log2. apply N.log2_lt_pow2 in Hx; lia. }
    rewrite !Z by assumption. reflexivity.
Qed.
Lemma get_code_ok num s : src_ok s ->
  (length (lleft s) < num -> get_code num s = None) /\
  (num <= length (lleft s) -> exists v s', get_code num s = Some (v, s') /\ lleft s = lsb num v ++ lleft s' /\ src_ok s' /\ (v < 2 ^ N.of_nat num)%N).
Proof.
  intros Hs. destruct (code_loop_ok num 0 0 s Hs) as [I1 I2]. split; [exact I1|]. intros L. destruct (I2 L) as [v [s' [J1 [J2 [J3 J4]]]]]. exists v, s'.
  split; [exact J1|].
  assert (T : forall k, N.testbit v k = nth (N.to_nat k) (firstn num (lleft s)) false).
  { intros k. rewrite J4, N.bits_0, N.sub_0_r. destruct (N.leb_spec 0 k); [reflexivity|lia]. }
  split; [|split; [exact J3|]].
  - rewrite J2. rewrite <- (firstn_skipn num (lleft s)) at 1. f_equal. apply (nth_ext _ _ false false).
    + rewrite lsb_length, firstn_length. lia.
    + intros i Hi. rewrite firstn_length in Hi. rewrite nth_lsb by lia. rewrite T, Nat2N.id. reflexivity.
  - destruct (N.eq_dec v 0) as [->|Nz]; [apply N.neq_0_lt_0, N.pow_nonzero; lia|]. apply N.log2_lt_pow2; [lia|].
    destruct (N.lt_ge_cases (N.log2 v) (N.of_nat num)) as [C|C]; [exact C|]. exfalso.
    pose proof (N.bit_log2 v Nz) as B. rewrite T, nth_overflow in B; [discriminate|]. rewrite firstn_length. lia.
Qed.
Lemma get_code_some num v r s : src_ok s -> (v < 2 ^ N.of_nat num)%N -> lleft s = lsb num v ++ r ->
  exists s', get_code num s = Some (v, s') /\ lleft s' = r /\ src_ok s'.
Proof.
  intros Hs Hv E. destruct (get_code_ok num s Hs) as [_ I]. destruct I as [v' [s' [J1 [J2 [J3 J4]]]]]; [rewrite E, app_length, lsb_length; lia|].
  rewrite E in J2. assert (A : lsb num v = lsb num v' /\ r = lleft s').
  { apply (f_equal (firstn num)) in J2 as F1. apply (f_equal (skipn num)) in J2 as F2.
    rewrite !firstn_app, !lsb_length, Nat.sub_diag, !firstn_O, !app_nil_r, !firstn_all2 in F1 by (rewrite lsb_length; lia).
    rewrite !skipn_app, !lsb_length, Nat.sub_diag, !skipn_O, !skipn_all2 in F2 by (rewrite lsb_length; lia). auto. }
  destruct A as [A1 A2]. apply (lsb_inj num v v' Hv J4) in A1. subst v'. exists s'. auto.
Qed.

(* ---- the dictionary ---- *)
Inductive str_of (d : dict) : N -> list N -> Prop :=
| so_root c : (c <= 255)%N -> dict_get d c = Some (c, c) -> str_of d c [c]
| so_link c b y s : (255 < c)%N -> (b < c)%N -> (y < 256)%N -> dict_get d c = Some (b, y) -> str_of d b s -> str_of d c (s ++ [y]).
Lemma get_rev_ok d c s : str_of d c s -> forall fuel, N.to_nat c < fuel -> get_rev fuel d c = Ok (rev s).
Proof.
  induction 1 as [c Hc E|c b y s Hc Hb Hy E S IH]; intros fuel Hf; (destruct fuel as [|fuel]; [lia|]); cbn [get_rev]; rewrite E.
  - rewrite N.eqb_refl. destruct (N.leb_spec c 255); [|lia]. cbn [andb rev app]. unfold as_u8. rewrite N.mod_small by lia. reflexivity.
  - destruct (N.leb_spec c 255); [lia|]. rewrite andb_false_r, (IH fuel) by lia. cbn [obind]. unfold as_u8. rewrite N.mod_small by lia. rewrite rev_app_distr. reflexivity.
Qed.
Lemma get_string_ok d c s : str_of d c s -> get_string d c = Ok s.
Proof. intros H. unfold get_string. rewrite (get_rev_ok d c s H) by lia. cbn [obind]. rewrite rev_involutive. reflexivity. Qed.
Lemma str_of_get d c s : str_of d c s -> dict_get d c <> None.
Proof. destruct 1; congruence. Qed.
Lemma str_of_nonempty d c s : str_of d c s -> s <> [].
Proof. destruct 1; [discriminate|]. intros E. apply app_eq_nil in E. destruct E; discriminate. Qed.
Lemma str_of_bytes d c s : str_of d c s -> Forall (fun b => (b < 256)%N) s.
Proof. induction 1; [constructor; [lia|constructor]|]. apply Forall_app. split; [assumption|]. constructor; [assumption|constructor]. Qed.
Lemma str_of_ext d k v c s : dict_get d k = None -> str_of d c s -> str_of ((k, v) :: d) c s.
Proof.
  intros Hk. induction 1 as [c Hc E|c b y s Hc Hb Hy E S IH].
  - apply so_root; [exact Hc|]. cbn [dict_get]. destruct (N.eqb_spec k c); [congruence|exact E].
  - apply (so_link _ c b y s Hc Hb Hy); [|exact IH]. cbn [dict_get]. destruct (N.eqb_spec k c); [congruence|exact E].
Qed.
Lemma dict_new_get : forall c, dict_get dict_new c = if (c <=? 255)%N then Some (c, c) else None.
Proof.
  assert (G : forall n a c, dict_get (map (fun i => (N.of_nat i, (N.of_nat i, N.of_nat i))) (seq a n)) c = if (N.of_nat a <=? c)%N && (c <? N.of_nat (a + n))%N then Some (c, c) else None).
  { induction n as [|n IH]; intros a c; cbn [seq map dict_get].
    - destruct (N.leb_spec (N.of_nat a) c), (N.ltb_spec c (N.of_nat (a + 0))); try reflexivity; lia.
    - destruct (N.eqb_spec (N.of_nat a) c) as [E|E].
      + subst c. destruct (N.leb_spec (N.of_nat a) (N.of_nat a)), (N.ltb_spec (N.of_nat a) (N.of_nat (a + S n))); try lia. reflexivity.
      + rewrite IH. destruct (N.leb_spec (N.of_nat (S a)) c), (N.leb_spec (N.of_nat a) c), (N.ltb_spec c (N.of_nat (S a + n))), (N.ltb_spec c (N.of_nat (a + S n))); try lia; reflexivity. }
  intros c. unfold dict_new. rewrite G. destruct (N.leb_spec (N.of_nat 0) c), (N.ltb_spec c (N.of_nat (0 + 256))), (N.leb_spec c 255); try lia; reflexivity.
Qed.

Record inv (cs : list N) (ps : list (list N)) (out0 : list N) (s : lzw) : Prop := mkI {
  i_len : length cs = length ps;
  i_root : forall c, (c <= 255)%N -> dict_get (lz_dict s) c = Some (c, c);
  i_link : forall k, (256 + N.of_nat k <= 4095)%N -> dict_get (lz_dict s) (256 + N.of_nat k) =
             if S k <? length ps then Some (nth k cs 0%N, hd 0%N (nth (S k) ps [])) else None;
  i_str : forall i, i < length ps -> str_of (lz_dict s) (nth i cs 0%N) (nth i ps []);
  i_small : forall i, i < length ps -> (nth i cs 0 < 256 + N.of_nat i)%N;
  i_curr : lz_curr s = if length ps <=? 1 then None else Some (N.min (254 + N.of_nat (length ps)) 4095)%N;
  i_prev : lz_prev s = if length ps =? 0 then None else Some (nth (length ps - 1) cs 0%N);
  i_last : lz_str s = nth (length ps - 1) ps [];
  i_out : lz_out s = out0 ++ concat ps }.
Lemma inv_start out : inv [] [] out (mkLZ dict_new None None [] out).
Proof.
  constructor; cbn [lz_dict lz_curr lz_prev lz_str lz_out length]; try reflexivity; try (intros; lia).
  - intros c Hc. rewrite dict_new_get. destruct (N.leb_spec c 255); [reflexivity|lia].
  - intros k Hk. rewrite dict_new_get. destruct (N.leb_spec (256 + N.of_nat k) 255); [lia|reflexivity].
  - rewrite app_nil_r. reflexivity.
Qed.
Lemma next_code cs ps out s : inv cs ps out s ->
  match lz_prev s with None => (None, lz_curr s) | Some _ => advance_code (lz_curr s) end =
  (if (length ps =? 0) then None else if (255 + N.of_nat (length ps) <=? 4095)%N then Some (255 + N.of_nat (length ps))%N else None,
   if (S (length ps) <=? 1) then None else Some (N.min (254 + N.of_nat (S (length ps))) 4095)%N).
Proof.
  intros I. rewrite (i_prev _ _ _ _ I), (i_curr _ _ _ _ I). set (p := length ps). clearbody p. clear.
  destruct (Nat.eqb_spec p 0) as [->|Np]; [reflexivity|]. destruct (Nat.leb_spec (S p) 1); [lia|].
  unfold advance_code. set (new := match (if (p <=? 1)%nat then None else Some (N.min (254 + N.of_nat p) 4095)) with None => 0 | Some c => c + 1 end%N).
  assert (Hnew : (if (new <=? 255)%N then 256%N else new) = N.min (255 + N.of_nat p) 4096).
  { unfold new. destruct (Nat.leb_spec p 1) as [C|C].
    - replace p with 1 by lia. reflexivity.
    - destruct (N.leb_spec (N.min (254 + N.of_nat p) 4095 + 1) 255); lia. }
  rewrite Hnew. destruct (N.leb_spec (255 + N.of_nat p) 4095) as [C|C].
  - destruct (N.ltb_spec 4095 (N.min (255 + N.of_nat p) 4096)); [lia|]. f_equal; f_equal; lia.
  - destruct (N.ltb_spec 4095 (N.min (255 + N.of_nat p) 4096)); [|lia]. f_equal. f_equal. lia.
Qed.
(* a new string enters *)
Lemma inv_add cs ps out s c str d' curr' nxt :
  inv cs ps out s ->
  nxt = (if (length ps =? 0) then None else if (255 + N.of_nat (length ps) <=? 4095)%N then Some (255 + N.of_nat (length ps))%N else None) ->
  curr' = (if (S (length ps) <=? 1) then None else Some (N.min (254 + N.of_nat (S (length ps))) 4095)%N) ->
  d' = match nxt with Some nc => (nc, (nth (length ps - 1) cs 0%N, hd 0%N str)) :: lz_dict s | None => lz_dict s end ->
  str_of d' c str -> (c < 256 + N.of_nat (length ps))%N ->
  inv (cs ++ [c]) (ps ++ [str]) out (mkLZ d' curr' (Some c) str (lz_out s ++ str)).
Proof.
  intros I En Ec Ed Hs Hc. pose proof (i_len _ _ _ _ I) as L. set (p := length ps) in *.
  assert (Fresh : forall nc, nxt = Some nc -> 0 < p /\ nc = (255 + N.of_nat p)%N /\ (nc <= 4095)%N /\ dict_get (lz_dict s) nc = None).
  { intros nc E. rewrite E in En. destruct (Nat.eqb_spec p 0); [discriminate|]. destruct (N.leb_spec (255 + N.of_nat p) 4095) as [G|G]; [|discriminate].
    injection En as ->. split; [lia|]. split; [reflexivity|]. split; [exact G|].
    replace (255 + N.of_nat p)%N with (256 + N.of_nat (p - 1))%N by lia. rewrite (i_link _ _ _ _ I) by lia. fold p. destruct (Nat.ltb_spec (S (p - 1)) p); [lia|reflexivity]. }
  assert (Keep : forall c0 s0, str_of (lz_dict s) c0 s0 -> str_of d' c0 s0).
  { intros c0 s0 H0. rewrite Ed. destruct nxt as [nc|]; [|exact H0]. destruct (Fresh nc eq_refl) as [_ [_ [_ F]]]. apply str_of_ext; assumption. }
  constructor; cbn [lz_dict lz_curr lz_prev lz_str lz_out]; rewrite ?app_length; cbn [length]; fold p; try (replace (p + 1) with (S p) by lia).
  - lia.
  - intros c0 H0. rewrite Ed. destruct nxt as [nc|]; [|apply (i_root _ _ _ _ I); exact H0]. destruct (Fresh nc eq_refl) as [F0 [F1 [F2 F3]]].
    cbn [dict_get]. destruct (N.eqb_spec nc c0); [lia|]. apply (i_root _ _ _ _ I); exact H0.
  - intros k Hk. assert (Old : dict_get (lz_dict s) (256 + N.of_nat k) = if S k <? p then Some (nth k cs 0%N, hd 0%N (nth (S k) ps [])) else None) by (apply (i_link _ _ _ _ I); exact Hk).
    assert (G : dict_get d' (256 + N.of_nat k) = if (S k =? p) then Some (nth k cs 0%N, hd 0%N str) else dict_get (lz_dict s) (256 + N.of_nat k)).
    { rewrite Ed. destruct nxt as [nc|].
      - destruct (Fresh nc eq_refl) as [F0 [F1 [F2 F3]]]. cbn [dict_get]. destruct (N.eqb_spec nc (256 + N.of_nat k)) as [E|E], (Nat.eqb_spec (S k) p) as [E2|E2]; try lia; [|reflexivity].
        replace (p - 1) with k by lia. reflexivity.
      - destruct (Nat.eqb_spec (S k) p) as [E2|E2]; [|reflexivity]. exfalso. destruct (Nat.eqb_spec p 0); [lia|]. destruct (N.leb_spec (255 + N.of_nat p) 4095); [discriminate|lia]. }
    rewrite G. destruct (Nat.eqb_spec (S k) p) as [E|E].
    + destruct (Nat.ltb_spec (S k) (S p)); [|lia]. rewrite app_nth1 by (fold p in L; lia). rewrite (app_nth2 ps) by (fold p; lia). fold p. rewrite E, Nat.sub_diag. reflexivity.
    + rewrite Old. destruct (Nat.ltb_spec (S k) p), (Nat.ltb_spec (S k) (S p)); try lia; [|reflexivity]. rewrite !app_nth1 by (fold p; lia). reflexivity.
  - intros i Hi. destruct (Nat.eq_dec i p) as [->|Ne].
    + rewrite (app_nth2 cs) by lia. rewrite (app_nth2 ps) by (fold p; lia). rewrite L. fold p. rewrite Nat.sub_diag. exact Hs.
    + rewrite !app_nth1 by (fold p; lia). apply Keep. apply (i_str _ _ _ _ I). fold p. lia.
  - intros i Hi. destruct (Nat.eq_dec i p) as [->|Ne].
    + rewrite (app_nth2 cs) by lia. rewrite L, Nat.sub_diag. exact Hc.
    + rewrite !app_nth1 by lia. apply (i_small _ _ _ _ I). fold p. lia.
  - exact Ec.
  - destruct (Nat.eqb_spec (S p) 0); [lia|]. f_equal. replace (S p - 1) with p by lia. rewrite app_nth2 by lia. rewrite L, Nat.sub_diag. reflexivity.
  - replace (S p - 1) with p by lia. rewrite app_nth2 by (fold p; lia). fold p. rewrite Nat.sub_diag. reflexivity.
  - rewrite (i_out _ _ _ _ I), concat_app. cbn [concat]. rewrite app_nil_r, app_assoc. reflexivity.
Qed.
Lemma step_ok cs ps out s c : inv cs ps out s -> (c < 4096)%N ->
  match phrase ps c with
  | Some str => exists s', lzw_step s c = Ok s' /\ inv (cs ++ [c]) (ps ++ [str]) out s'
  | None => lzw_step s c = if length ps =? 0 then Panic else Err ImageCorruptError
  end.
Proof.
  intros I Hc. pose proof (i_len _ _ _ _ I) as L. unfold lzw_step. rewrite (next_code _ _ _ _ I).
  set (p := length ps) in *.
  set (nxt := if p =? 0 then None else if (255 + N.of_nat p <=? 4095)%N then Some (255 + N.of_nat p)%N else None).
  set (curr' := if S p <=? 1 then None else Some (N.min (254 + N.of_nat (S p)) 4095)%N).
  (* what follows once the string is known *)
  assert (Fin : forall str d', str <> [] -> d' = match nxt with Some nc => (nc, (nth (p - 1) cs 0%N, hd 0%N str)) :: lz_dict s | None => lz_dict s end ->
     str_of d' c str -> (c < 256 + N.of_nat p)%N ->
     exists s', (let! d := match nxt, lz_prev s with Some nc, Some q => let! h := oindex str 0 in Ok ((nc, (q, h)) :: lz_dict s) | _, _ => Ok (lz_dict s) end in
                 Ok (mkLZ d curr' (Some c) str (lz_out s ++ str))) = Ok s' /\ inv (cs ++ [c]) (ps ++ [str]) out s').
  { intros str d' Ne Ed S0 Hsm. exists (mkLZ d' curr' (Some c) str (lz_out s ++ str)).
    split; [|apply (inv_add cs ps out s c str d' curr' nxt I eq_refl eq_refl Ed S0 Hsm)].
    rewrite (i_prev _ _ _ _ I). fold p. rewrite Ed. unfold nxt. destruct (Nat.eqb_spec p 0) as [Z|Z]; [reflexivity|].
    destruct (N.leb_spec (255 + N.of_nat p) 4095); [|reflexivity]. destruct str as [|h str]; [congruence|]. reflexivity. }
  assert (Ext : forall c0 s0 str, str_of (lz_dict s) c0 s0 -> str_of match nxt with Some nc => (nc, (nth (p - 1) cs 0%N, hd 0%N str)) :: lz_dict s | None => lz_dict s end c0 s0).
  { intros c0 s0 str H0. unfold nxt. destruct (Nat.eqb_spec p 0) as [Z|Z]; [exact H0|]. destruct (N.leb_spec (255 + N.of_nat p) 4095) as [G|G]; [|exact H0].
    apply str_of_ext; [|exact H0]. replace (255 + N.of_nat p)%N with (256 + N.of_nat (p - 1))%N by lia. rewrite (i_link _ _ _ _ I) by lia. fold p. destruct (Nat.ltb_spec (S (p - 1)) p); [lia|reflexivity]. }
  unfold phrase. destruct (N.ltb_spec c 256) as [C|C].
  - assert (R : str_of (lz_dict s) c [c]) by (apply so_root; [lia|apply (i_root _ _ _ _ I); lia]).
    rewrite (i_root _ _ _ _ I) by lia. rewrite (get_string_ok _ _ _ R). cbn [obind]. apply (Fin [c] _ ltac:(discriminate) eq_refl); [apply Ext; exact R|lia].
  - set (k := N.to_nat (c - 256)). assert (Ek : c = (256 + N.of_nat k)%N) by (unfold k; lia).
    assert (Dc : dict_get (lz_dict s) c = if S k <? p then Some (nth k cs 0%N, hd 0%N (nth (S k) ps [])) else None) by (rewrite Ek; apply (i_link _ _ _ _ I); lia).
    destruct (Nat.ltb_spec (S k) p) as [K|K].
    + rewrite Dc. rewrite (nth_error_nth' ps []) by (fold p; lia). rewrite (nth_indep ps (nth k ps []) []) by (fold p; lia).
      assert (Hh : (hd 0 (nth (S k) ps []) < 256)%N).
      { pose proof (str_of_bytes _ _ _ (i_str _ _ _ _ I (S k) ltac:(fold p; lia))) as B. pose proof (str_of_nonempty _ _ _ (i_str _ _ _ _ I (S k) ltac:(fold p; lia))) as Ne.
        destruct (nth (S k) ps []) as [|h t]; [congruence|]. inversion B; assumption. }
      assert (R : str_of (lz_dict s) c (nth k ps [] ++ [hd 0%N (nth (S k) ps [])])).
      { apply (so_link _ c (nth k cs 0%N)); [lia| |exact Hh|exact Dc|apply (i_str _ _ _ _ I); fold p; lia]. pose proof (i_small _ _ _ _ I k ltac:(fold p; lia)). lia. }
      rewrite (get_string_ok _ _ _ R). cbn [obind]. apply (Fin _ _ (str_of_nonempty _ _ _ R) eq_refl); [apply Ext; exact R|lia].
    + rewrite Dc. rewrite (i_last _ _ _ _ I). fold p. destruct (Nat.eqb_spec p 0) as [Z|Z].
      { assert (ps = []) as -> by (destruct ps; [reflexivity|discriminate]). destruct k; reflexivity. }
      pose proof (i_str _ _ _ _ I (p - 1) ltac:(fold p; lia)) as S0. pose proof (str_of_nonempty _ _ _ S0) as Ne. pose proof (str_of_bytes _ _ _ S0) as B0.
      destruct (nth (p - 1) ps []) as [|h t] eqn:El; [congruence|]. change (oindex (h :: t) 0) with (Ok h). cbn [obind].
      destruct (Nat.eq_dec (S k) p) as [E|E].
      * assert (Hn : nxt = Some c). { unfold nxt. destruct (Nat.eqb_spec p 0); [lia|]. destruct (N.leb_spec (255 + N.of_nat p) 4095); [f_equal; lia|lia]. }
        rewrite (nth_error_nth' ps []) by (fold p; lia). rewrite (nth_overflow ps (n := S k)) by (fold p; lia).
        replace (nth k ps []) with (h :: t) by (rewrite <- El; f_equal; lia). change (hd 0%N (h :: t)) with h.
        pose proof (Fin ((h :: t) ++ [h]) _ ltac:(discriminate) eq_refl) as FF. specialize (Ext _ _ [h] S0). rewrite Hn in FF, Ext. cbv beta iota in Ext.
        rewrite Hn. rewrite (N.eqb_refl c). cbn [obind]. apply FF; [|lia]. pose proof (Forall_inv B0) as Hb. cbv beta in Hb.
        change (hd 0%N ((h :: t) ++ [h])) with h. change (hd 0%N [h]) with h in Ext.
        apply (so_link _ c (nth (p - 1) cs 0%N)); [lia| |assumption| |exact Ext].
        -- pose proof (i_small _ _ _ _ I (p - 1) ltac:(fold p; lia)). lia.
        -- cbn [dict_get]. rewrite N.eqb_refl. reflexivity.
      * assert (Hnone : nth_error ps k = None) by (apply nth_error_None; fold p; lia). rewrite Hnone.
        unfold nxt. destruct (Nat.eqb_spec p 0); [lia|]. destruct (N.leb_spec (255 + N.of_nat p) 4095); [|reflexivity].
        destruct (N.eqb_spec c (255 + N.of_nat p)); [lia|]. reflexivity.
Qed.
Lemma run_ok codes : forall cs ps out s, inv cs ps out s -> Forall (fun c => (c < 4096)%N) codes ->
  match phrases ps codes with
  | Some ps' => exists s', ofold lzw_step codes s = Ok s' /\ inv (cs ++ codes) ps' out s'
  | None => ofold lzw_step codes s = if (length ps =? 0) && negb (starts_with_byte codes) then Panic else Err ImageCorruptError
  end.
Proof.
  induction codes as [|c codes IH]; intros cs ps out s I F; cbn [phrases ofold].
  - exists s. rewrite app_nil_r. split; [reflexivity|exact I].
  - pose proof (Forall_inv F) as Hc. pose proof (Forall_inv_tail F) as F'. cbv beta in Hc. pose proof (step_ok cs ps out s c I Hc) as S.
    destruct (phrase ps c) as [str|] eqn:Ep.
    + destruct S as [s' [E1 I1]]. rewrite E1. cbn [obind]. specialize (IH _ _ _ _ I1 F'). destruct (phrases (ps ++ [str]) codes) as [ps'|].
      * destruct IH as [s2 [E2 I2]]. exists s2. split; [exact E2|]. rewrite <- app_assoc in I2. exact I2.
      * rewrite IH. rewrite app_length. cbn [length]. destruct (Nat.eqb_spec (length ps + 1) 0); [lia|]. cbn [andb].
        destruct (Nat.eqb_spec (length ps) 0) as [Z|Z]; [|reflexivity]. cbn [andb starts_with_byte].
        assert (ps = []) as -> by (destruct ps; [reflexivity|discriminate]). unfold phrase in Ep. destruct (c <? 256)%N; [reflexivity|]. destruct (N.to_nat (c - 256)); discriminate.
    + rewrite S. cbn [starts_with_byte]. unfold phrase in Ep. destruct (N.ltb_spec c 256); [discriminate|]. cbn [negb]. rewrite andb_true_r. destruct (length ps =? 0); reflexivity.
Qed.
Lemma codes_loop codes : forall fuel bc cb s src bits, src_ok src -> lleft src = flat_map (lsb 12) codes ++ bits -> Forall (fun c => (c < 4096)%N) codes -> length codes < fuel ->
  (bc + 12 * N.of_nat (length codes) < cb + 12)%N ->
  ((cb <= bc + 12 * N.of_nat (length codes))%N ->
     exists src', src_ok src' /\ lleft src' = bits /\ lzw_codes fuel bc cb s src = let! s := ofold lzw_step codes s in Ok (s, src', false)) /\
  ((bc + 12 * N.of_nat (length codes) < cb)%N -> length bits < 12 ->
     exists src', lzw_codes fuel bc cb s src = let! s := ofold lzw_step codes s in Ok (s, src', true)).
Proof.
  induction codes as [|c codes IH]; intros fuel bc cb s src bits Hs El F Hf Hb; (destruct fuel as [|fuel]; [cbn [length] in Hf; lia|]); cbn [length] in *.
  - cbn [flat_map app] in El. split.
    + intros H. exists src. split; [exact Hs|]. split; [exact El|]. cbn [lzw_codes ofold obind]. destruct (N.ltb_spec bc cb); [lia|reflexivity].
    + intros H L. exists src. cbn [lzw_codes ofold obind]. destruct (N.ltb_spec bc cb); [|lia]. rewrite (proj1 (get_code_ok 12 src Hs)) by (rewrite El; exact L). reflexivity.
  - pose proof (Forall_inv F) as Hc. pose proof (Forall_inv_tail F) as F'. cbv beta in Hc. cbn [flat_map] in El. rewrite <- app_assoc in El.
    destruct (get_code_some 12 c _ src Hs Hc El) as [s1 [G1 [G2 G3]]]. cbn [lzw_codes ofold]. destruct (N.ltb_spec bc cb) as [B|B]; [|lia]. rewrite G1.
    destruct (lzw_step s c) as [st|e|] eqn:Es; cbn [obind].
    + destruct (IH fuel (bc + 12)%N cb st s1 bits G3 G2 F' ltac:(lia) ltac:(lia)) as [I1 I2]. split.
      * intros H. apply I1. lia.
      * intros H L. apply I2; [lia|exact L].
    + assert (X : exists src', src_ok src' /\ lleft src' = bits). { exists (mkBS bits 0 []). split; [unfold src_ok; cbn [b_ptr]; lia|]. unfold lleft. cbn [b_bits b_ptr b_rest skipn flat_map]. apply app_nil_r. }
      destruct X as [src' [X1 X2]]. split; intros; exists src'; auto.
    + assert (X : exists src', src_ok src' /\ lleft src' = bits). { exists (mkBS bits 0 []). split; [unfold src_ok; cbn [b_ptr]; lia|]. unfold lleft. cbn [b_bits b_ptr b_rest skipn flat_map]. apply app_nil_r. }
      destruct X as [src' [X1 X2]]. split; intros; exists src'; auto.
Qed.
Fixpoint result (out : list N) (chunks : list (list N)) : outcome (list N) :=
  match chunks with
  | [] => Ok out
  | codes :: chunks => match phrases [] codes with
                       | Some ps => result (out ++ concat ps) chunks
                       | None => if starts_with_byte codes then Err ImageCorruptError else Panic
                       end
  end.
Lemma codes_bound codes : length (flat_map (lsb 12) codes) = length codes * 12.
Proof. apply flat_map_const_length. intros. apply lsb_length. Qed.
Lemma codes_in_spec h : (4 * h <= 12 * codes_in h /\ 12 * codes_in h < 4 * h + 12)%N.
Proof.
  unfold codes_in. pose proof (N.div_mod (4 * h + 11) 12 ltac:(lia)) as D. pose proof (N.mod_lt (4 * h + 11) 12 ltac:(lia)) as M. lia.
Qed.
Lemma left_bound s : length (lleft s) <= length (b_bits s) + 8 * length (b_rest s).
Proof.
  unfold lleft. rewrite app_length, skipn_length, (flat_map_const_length lsb_bits 8 (b_rest s) (fun x => eq_refl)). lia.
Qed.
Lemma chunks_ok bits chunks : chunked bits chunks -> forall fuel out src, src_ok src -> lleft src = bits -> length bits < fuel ->
  lzw_chunks fuel out src = result out chunks.
Proof.
  induction 1 as [bits L|h codes bits Hh F L R|h codes bits chunks Hh F L C IH]; intros fuel out src Hs El Hf; (destruct fuel as [|fuel]; [lia|]); cbn [lzw_chunks result].
  - rewrite (proj1 (get_code_ok 16 src Hs)) by (rewrite El; exact L). reflexivity.
  - destruct (get_code_some 16 h _ src Hs Hh El) as [s1 [G1 [G2 G3]]]. rewrite G1. pose proof (codes_in_spec h) as CI.
    pose proof (left_bound s1) as LB. rewrite G2, app_length, codes_bound in LB.
    destruct (codes_loop codes (S (length (b_bits s1) + 8 * length (b_rest s1))) 0 (4 * h) (mkLZ dict_new None None [] out) s1 bits G3 G2 F ltac:(lia) ltac:(lia)) as [_ I2].
    destruct (I2 ltac:(lia) R) as [src' E]. rewrite E. pose proof (run_ok codes [] [] out _ (inv_start out) F) as RO.
    destruct (phrases [] codes) as [ps|].
    + destruct RO as [s' [E1 I1]]. rewrite E1. cbn [obind]. rewrite (i_out _ _ _ _ I1). reflexivity.
    + rewrite RO. cbn [length Nat.eqb andb]. destruct (starts_with_byte codes); reflexivity.
  - destruct (get_code_some 16 h _ src Hs Hh El) as [s1 [G1 [G2 G3]]]. rewrite G1. pose proof (codes_in_spec h) as CI.
    pose proof (left_bound s1) as LB. rewrite G2, app_length, codes_bound in LB.
    destruct (codes_loop codes (S (length (b_bits s1) + 8 * length (b_rest s1))) 0 (4 * h) (mkLZ dict_new None None [] out) s1 bits G3 G2 F ltac:(lia) ltac:(lia)) as [I1 _].
    destruct (I1 ltac:(lia)) as [src' [S' [El' E]]]. rewrite E. pose proof (run_ok codes [] [] out _ (inv_start out) F) as RO.
    destruct (phrases [] codes) as [ps|].
    + destruct RO as [s' [E1 IV]]. rewrite E1. cbn [obind]. rewrite (i_out _ _ _ _ IV). apply IH; [exact S'|exact El'|].
      rewrite !app_length, lsb_length in Hf. lia.
    + rewrite RO. cbn [length Nat.eqb andb]. destruct (starts_with_byte codes); reflexivity.
Qed.
(* every list of bits falls into chunks *)
Lemma take_code n bits : n <= length bits -> exists v r, bits = lsb n v ++ r /\ (v < 2 ^ N.of_nat n)%N.
Proof.
  intros L. assert (Hs : src_ok (mkBS bits 0 [])) by (unfold src_ok; cbn [b_ptr]; lia).
  assert (El : lleft (mkBS bits 0 []) = bits) by (unfold lleft; cbn [b_bits b_ptr b_rest skipn flat_map]; apply app_nil_r).
  destruct (proj2 (get_code_ok n _ Hs)) as [v [s' [_ [E [_ H]]]]]; [rewrite El; exact L|]. rewrite El in E. eauto.
Qed.
Lemma take_codes m : forall bits, exists codes r, bits = flat_map (lsb 12) codes ++ r /\ Forall (fun c => (c < 4096)%N) codes /\ (length codes = m \/ length codes < m /\ length r < 12).
Proof.
  induction m as [|m IH]; intros bits; [exists [], bits; split; [reflexivity|]; split; [constructor|left; reflexivity]|].
  destruct (Nat.lt_ge_cases (length bits) 12) as [L|L].
  - exists [], bits. split; [reflexivity|]. split; [constructor|]. right. cbn [length]. lia.
  - destruct (take_code 12 bits L) as [v [r [E Hv]]]. destruct (IH r) as [codes [r' [E' [F H]]]]. exists (v :: codes), r'. cbn [flat_map length]. rewrite E, E', <- app_assoc.
    split; [reflexivity|]. split; [constructor; [exact Hv|exact F]|]. lia.
Qed.
Lemma chunked_exists bits : exists chunks, chunked bits chunks.
Proof.
  remember (length bits) as n eqn:En. assert (H : length bits <= n) by lia. clear En. revert bits H. induction n as [|n IH]; intros bits H.
  - exists []. apply chunked_end. lia.
  - destruct (Nat.lt_ge_cases (length bits) 16) as [L|L]; [exists []; apply chunked_end; exact L|].
    destruct (take_code 16 bits L) as [h [r [E Hh]]]. destruct (take_codes (N.to_nat (codes_in h)) r) as [codes [r' [E' [F [C|[C1 C2]]]]]].
    + destruct (IH r') as [chunks C'].
      { apply (f_equal (@length bool)) in E. apply (f_equal (@length bool)) in E'. rewrite app_length, lsb_length in E. rewrite app_length in E'. lia. }
      exists (codes :: chunks). rewrite E, E'. apply chunked_next; [exact Hh|exact F|lia|exact C'].
    + exists [codes]. rewrite E, E'. apply chunked_cut; [exact Hh|exact F|lia|exact C2].
Qed.
Lemma result_some out chunks r : expansion chunks = Some r -> result out chunks = Ok (out ++ r).
Proof.
  revert out r; induction chunks as [|codes chunks IH]; intros out r E; cbn [expansion result] in *; [injection E as <-; rewrite app_nil_r; reflexivity|].
  destruct (phrases [] codes) as [ps|]; [|discriminate]. destruct (expansion chunks) as [o|] eqn:Eo; [|discriminate]. injection E as <-. rewrite (IH _ o eq_refl), <- app_assoc. reflexivity.
Qed.
Lemma result_app out a b r : expansion a = Some r -> result out (a ++ b) = result (out ++ r) b.
Proof.
  revert out r; induction a as [|codes a IH]; intros out r E; cbn [expansion result app] in *; [injection E as <-; rewrite app_nil_r; reflexivity|].
  destruct (phrases [] codes) as [ps|]; [|discriminate]. destruct (expansion a) as [o|] eqn:Eo; [|discriminate]. injection E as <-. rewrite (IH _ o eq_refl), <- app_assoc. reflexivity.
Qed.
Lemma expansion_none chunks : expansion chunks = None -> exists a codes b r, chunks = a ++ codes :: b /\ expansion a = Some r /\ phrases [] codes = None.
Proof.
  induction chunks as [|codes chunks IH]; intros E; cbn [expansion] in E; [discriminate|]. destruct (phrases [] codes) as [ps|] eqn:Ep.
  - destruct (expansion chunks) as [o|] eqn:Eo; [discriminate|]. destruct (IH eq_refl) as [a [c [b [r [E1 [E2 E3]]]]]]. exists (codes :: a), c, b, (concat ps ++ r).
    split; [rewrite E1; reflexivity|]. split; [cbn [expansion]; rewrite Ep, E2; reflexivity|exact E3].
  - exists [], codes, chunks, []. split; [reflexivity|]. split; [reflexivity|exact Ep].
Qed.
Lemma lzw_expand_ok file chunks : (12 <= N.of_nat (length file) <= 3000012)%N -> chunked (lsb_body file) chunks ->
  lzw_expand file = let! out := result [] chunks in Ok (match out with [] => [] | _ => repeat 0%N 12 ++ out end, N.of_nat (length out)).
Proof.
  intros L C. unfold lzw_expand. destruct (N.ltb_spec (N.of_nat (length file)) 12); [lia|]. destruct (N.ltb_spec 3000000 (N.of_nat (length file) - 12)); [lia|].
  rewrite (chunks_ok _ _ C); [reflexivity|unfold src_ok; cbn [b_ptr]; lia|reflexivity|].
  unfold lsb_body. rewrite (flat_map_const_length (lsb 8) 8 (skipn 12 file) (lsb_length 8)). lia.
Qed.
