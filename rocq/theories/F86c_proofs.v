(* F86c_proofs.v - the 86F writer and loader loops. *)
From Verif Require Import Base Base_lemmas BitRing_proofs Mfm_spec Weak_proofs
  Chs_model BitRing_model Mfm_model Types_model System34_model MetaSector_model BitStream_model DiskImage_model DiskImage_spec DiskImage_proofs
  Format_model Raw_model Format2_proofs TreeMap_proofs Pce_spec Pce3_proofs Pce4_proofs F86_model F86_spec F86_proofs F86b_proofs.
From Coq Require Import Lia ZArith.

Fixpoint offs_of (p : nat) (l : list (list N)) : list N := match l with [] => [] | e :: l => N.of_nat p :: offs_of (p + length e) l end.
Fixpoint pairs_of (p : nat) (l : list (list N)) : list (N * N) :=
  match l with [] => [] | e :: l => (N.of_nat p, N.of_nat (length e)) :: pairs_of (p + length e) l end.
Lemma offs_length : forall l p, length (offs_of p l) = length l.
Proof. induction l as [|e l IH]; intros p; cbn [offs_of length]; auto. Qed.
Definition Job : Type := (bool * BitTrack)%type.
Definition ent (tf : N) (j : Job) : list N := entry_of tf (fst j) (snd j).

(* ---- writer ---- *)
Definition src (d : DiskImage) (dd : DiskDesc) (heads step i : nat) (j : Job) : Prop :=
  exists ti, nth_error (if i mod heads =? 0 then di_map0 d else di_map1 d) (i / heads / step) = Some ti /\
    nth_error (di_pool d) ti = Some (TBit (snd j)) /\ fst j = is_hole dd (i / heads / step) (i mod heads).
Definition fits (j : Job) : Prop :=
  length (to_bytes (weak_cells (snd j))) = octets (snd j) /\ (N.of_nat (length (cells (snd j))) <= 8 * 0x100000)%N.
Lemma position_step heads step i : heads = 1 \/ heads = 2 -> step = 1 \/ step = 2 ->
  (if S (i mod heads) =? heads
   then if step =? 2 then if S ((i / heads) mod step) =? 2 then (S (i / heads / step), 0, 0) else (i / heads / step, 0, S ((i / heads) mod step))
        else (S (i / heads / step), 0, (i / heads) mod step)
   else (i / heads / step, S (i mod heads), (i / heads) mod step))
  = (S i / heads / step, S i mod heads, (S i / heads) mod step).
Proof.
  intros [-> | ->] [-> | ->].
  - rewrite !Nat.div_1_r, !Nat.mod_1_r. reflexivity.
  - rewrite !Nat.div_1_r, !Nat.mod_1_r. change (1 =? 1) with true. change (2 =? 2) with true. cbv iota.
    destruct (Nat.eqb_spec (S (i mod 2)) 2) as [E|E]; [f_equal; [f_equal|]|f_equal; [f_equal|]]; dlia.
  - rewrite !Nat.div_1_r, !Nat.mod_1_r. change (1 =? 2) with false. cbv iota.
    destruct (Nat.eqb_spec (S (i mod 2)) 2) as [E|E]; (f_equal; f_equal); dlia.
  - change (2 =? 2) with true. cbv iota.
    destruct (Nat.eqb_spec (S (i mod 2)) 2) as [E|E]; [destruct (Nat.eqb_spec (S (i / 2 mod 2)) 2) as [E2|E2]|];
      (f_equal; [f_equal|]); rewrite ?Nat.div_div by lia; cbn [Nat.mul]; dlia.
Qed.
Lemma concat_length_cons (e : list N) l : length (concat (e :: l)) = length e + length (concat l).
Proof. cbn [concat]. apply app_length. Qed.
Lemma entries_loop d dd tf heads step base : heads = 1 \/ heads = 2 -> step = 1 \/ step = 2 ->
  forall l i offs body, (forall k j, nth_error l k = Some j -> src d dd heads step (i + k) j /\ fits j) ->
  (N.of_nat (base + length body + length (concat (map (ent tf) l))) < 4294967296)%N ->
  f86_entries d dd tf true (step =? 2) heads base (length l) (i / heads / step) (i mod heads) ((i / heads) mod step) offs body =
  Ok (offs ++ offs_of (base + length body) (map (ent tf) l), body ++ concat (map (ent tf) l)).
Proof.
  intros Hh Hs. induction l as [|j l IH]; intros i offs body Hl Hb.
  - cbn [map length f86_entries offs_of concat]. rewrite !app_nil_r. reflexivity.
  - cbn [map length f86_entries offs_of concat]. cbn [map] in Hb. rewrite concat_length_cons in Hb.
    destruct (Hl 0 j eq_refl) as ((ti & E1 & E2 & E3) & F1 & F2). rewrite Nat.add_0_r in E1, E3.
    unfold oindex. rewrite E1. cbn [obind]. rewrite E2. cbn [obind].
    fold (is_hole dd (i / heads / step) (i mod heads)). rewrite <- E3. rewrite f86_entry_spec by assumption. cbn [obind].
    fold (ent tf j). rewrite (position_step heads step i Hh Hs).
    rewrite (IH (S i)).
    + rewrite app_length. rewrite <- !app_assoc. cbn [app].
      assert (Eo : as_u32 (N.of_nat (base + length body)) = N.of_nat (base + length body)).
      { unfold as_u32. apply N.mod_small. change (2 ^ 32)%N with 4294967296%N. clear - Hb. lia. }
      rewrite Eo, Nat.add_assoc. reflexivity.
    + intros k j' Hk. replace (S i + k) with (i + S k) by lia. apply Hl. exact Hk.
    + rewrite app_length. clear - Hb. lia.
Qed.

(* ---- offset table ---- *)
Lemma table_loop : forall l z last e acc rest flen, (forall x, In x (e :: l) -> 0 < length x) -> 0 < last ->
  flen = last + length e + length (concat l) -> (N.of_nat flen < 4294967296)%N ->
  f86_table (length l + z) (flat_map le32 (offs_of (last + length e) l ++ repeat 0%N z) ++ rest) (N.of_nat last) acc (N.of_nat flen) =
  Ok (acc ++ pairs_of last (e :: l)).
Proof.
  induction l as [|e2 l IH]; intros z last e acc rest flen Hpos Hlast Hf H32.
  - cbn [length offs_of app Nat.add concat pairs_of] in *.
    assert (Efin : (if (N.of_nat flen <? N.of_nat last)%N then Panic else Ok (acc ++ [(N.of_nat last, N.of_nat flen - N.of_nat last)%N])) =
      Ok (acc ++ [(N.of_nat last, N.of_nat (length e))])).
    { replace (N.of_nat flen <? N.of_nat last)%N with false by (symmetry; apply N.ltb_ge; clear - Hf; lia).
      do 2 f_equal. f_equal. f_equal. clear - Hf. lia. }
    destruct z as [|z]; [exact Efin|]. cbn [f86_table repeat flat_map]. rewrite <- app_assoc, read_le32_app by reflexivity. cbn [obind].
    change (0 =? 0)%N with true. exact Efin.
  - cbn [length offs_of app Nat.add concat pairs_of f86_table flat_map] in *. rewrite app_length in Hf.
    rewrite <- app_assoc, read_le32_app by (clear - Hf H32; lia). cbn [obind].
    replace (N.of_nat (last + length e) =? 0)%N with false by (symmetry; apply N.eqb_neq; clear - Hlast; lia).
    replace (N.of_nat (last + length e) <? N.of_nat last)%N with false by (symmetry; apply N.ltb_ge; clear; lia).
    rewrite IH.
    + rewrite <- app_assoc. cbn [app pairs_of]. do 2 f_equal. f_equal. f_equal. clear. lia.
    + intros x Hx. apply Hpos. right. exact Hx.
    + lia.
    + lia.
    + exact H32.
Qed.

(* ---- loader ---- *)
Lemma append_other s h h' t : (h < 2)%N -> (h' < 2)%N -> h <> h' -> side (append_to s h t) h' = side s h'.
Proof.
  intros A B C. assert (E : h = 0%N \/ h = 1%N) by lia. assert (E' : h' = 0%N \/ h' = 1%N) by lia.
  destruct E as [-> | ->], E' as [-> | ->]; try congruence; reflexivity.
Qed.
Section Load.
  Variable rnd : Rnd.
  Variable bitlen : N -> N -> N -> N -> bool -> Z -> N.
  Variable other : N -> DiskImage -> DiskCh -> list N -> option (list N) -> nat -> DiskImage * outcome nat.
  Variables (fl rate rpm : N) (heads : nat) (J : list Job) (H : list N).
  Hypothesis (Hheads : heads = 1 \/ heads = 2) (Hff : file_flags fl heads) (Hrate : (rate <= 3)%N) (Hrpm : (rpm <= 1)%N).
  Hypothesis HJ : Forall (fun j => f86_track_ok rnd (fst j) (snd j)) J.
  Hypothesis HJn : length J <= 512.
  Let tf := tf_of rate rpm.
  Let file := H ++ concat (map (ent tf) J).
  Definition at_pos (i h : nat) : nat := (i + (heads - 1 - h)) / heads.
  Record inv (i : nat) (st : F86State) (s : Heads) : Prop := mkInv {
    iv_wf : wf (fs_img st) s; iv_res : res_free (fs_img st); iv_resb : 0 < i -> di_res (fs_img st) = [RBitStream];
    iv_rpm : fs_rpm st = (if i =? 0 then None else Some rpm);
    iv_h : fs_h st = N.of_nat (i mod heads); iv_c : fs_c st = N.of_nat (i / heads);
    iv_len : forall h, h < heads -> length (side s (N.of_nat h)) = at_pos i h;
    iv_one : heads = 1 -> snd s = [];
    iv_tracks : forall k j, k < i -> nth_error J k = Some j ->
      exists t, nth_error (side s (N.of_nat (k mod heads))) (k / heads) = Some (TBit t) /\ kept (fst j) (snd j) t /\
        bt_ch t = mkCh (N.of_nat (k / heads)) (N.of_nat (k mod heads)) }.
  Lemma load_loop : forall l P st s, J = P ++ l -> inv (length P) st s ->
    exists st' s', ofold (f86_track rnd bitlen other fl file) (pairs_of (length H + length (concat (map (ent tf) P))) (map (ent tf) l)) st = Ok st' /\
      inv (length J) st' s'.
  Proof.
    induction l as [|j l IH]; intros P st s EJ I.
    { exists st, s. split; [reflexivity|]. rewrite EJ, app_nil_r. exact I. }
    cbn [map pairs_of ofold]. set (i := length P) in *.
    assert (Hi : i < length J) by (rewrite EJ, app_length; cbn [length]; unfold i; lia).
    assert (Hj : nth_error J i = Some j) by (rewrite EJ, nth_error_app2, Nat.sub_diag by (unfold i; lia); reflexivity).
    assert (Hok : f86_track_ok rnd (fst j) (snd j)) by (rewrite Forall_forall in HJ; apply HJ; eapply nth_error_In; exact Hj).
    assert (Hmod : i mod heads < heads) by (apply Nat.mod_upper_bound; destruct Hheads; lia).
    destruct I as [Iwf Ires Iresb Irpm Ih Ic Ilen Ione Itr].
    destruct (track_step rnd bitlen other fl heads rate rpm (fst j) (snd j) (H ++ concat (map (ent tf) P)) (concat (map (ent tf) l)) st s (i / heads) (i mod heads))
      as (st1 & t & E & K & Kch & W & R & Rb & Rp & Sh & Sc); auto.
    { rewrite Irpm. destruct (i =? 0); auto. }
    { assert (i / heads <= i) by (apply Nat.div_le_upper_bound; clear - Hheads; destruct Hheads as [E | E]; rewrite E; lia). clear - H0 Hi HJn. lia. }
    assert (Efile : file = (H ++ concat (map (ent tf) P)) ++ entry_of tf (fst j) (snd j) ++ concat (map (ent tf) l)).
    { unfold file. rewrite EJ, map_app, concat_app. cbn [map concat]. rewrite <- !app_assoc. reflexivity. }
    rewrite app_length in E. fold tf in E. rewrite <- Efile in E. change (entry_of tf (fst j) (snd j)) with (ent tf j) in E. rewrite E. cbn [obind].
    assert (Estep : (if S (i mod heads) =? heads then 0 else S (i mod heads)) = S i mod heads /\
                    (if S (i mod heads) =? heads then S (i / heads) else i / heads) = S i / heads).
    { clear - Hheads. destruct Hheads as [-> | ->].
      - rewrite !Nat.mod_1_r, !Nat.div_1_r. split; reflexivity.
      - destruct (Nat.eqb_spec (S (i mod 2)) 2); split; dlia. }
    destruct Estep as [Eh Ec]. rewrite Eh in Sh. rewrite Ec in Sc.
    destruct (IH (P ++ [j]) st1 (append_to s (N.of_nat (i mod heads)) (TBit t))) as (st' & s' & E' & I').
    { rewrite <- app_assoc. exact EJ. }
    { rewrite app_length. cbn [length]. fold i. rewrite Nat.add_1_r. constructor; auto.
      - intros h Hlt. destruct (Nat.eq_dec h (i mod heads)) as [->|Hne].
        + rewrite append_side by (clear - Hheads Hmod; lia). rewrite app_length, Ilen by exact Hmod. cbn [length]. unfold at_pos.
          clear - Hheads. destruct Hheads as [-> | ->]; [rewrite !Nat.mod_1_r, !Nat.div_1_r; lia|dlia].
        + rewrite append_other by (clear - Hheads Hmod Hlt Hne; lia). rewrite Ilen by exact Hlt. unfold at_pos.
          clear - Hheads Hne Hlt. destruct Hheads as [-> | ->]; [rewrite Nat.mod_1_r in Hne; lia|dlia].
      - intros E1. specialize (Ione E1). rewrite E1, Nat.mod_1_r. cbn [N.of_nat append_to snd]. exact Ione.
      - intros k j' Hk Hj'. destruct (Nat.eq_dec k i) as [->|Hne].
        + exists t. rewrite append_side by (clear - Hheads Hmod; lia). rewrite Hj in Hj'. injection Hj' as <-.
          split; [|split; [exact K|exact Kch]]. apply app_nth_last. rewrite Ilen by exact Hmod. unfold at_pos.
          clear - Hheads. destruct Hheads as [-> | ->]; [rewrite !Nat.mod_1_r, !Nat.div_1_r; lia|dlia].
        + destruct (Itr k j' ltac:(clear - Hk Hne; lia) Hj') as (t0 & Et & K0 & Kc0). exists t0. split; [|split; assumption].
          destruct (Nat.eq_dec (i mod heads) (k mod heads)) as [Em|Em].
          * rewrite Em, append_side by (rewrite <- Em; clear - Hheads Hmod; lia). rewrite nth_error_app1; [exact Et|].
            apply nth_error_Some. rewrite Et. discriminate.
          * rewrite append_other; [exact Et|clear - Hheads Hmod; lia| |clear - Em; lia].
            assert (k mod heads < heads) by (apply Nat.mod_upper_bound; destruct Hheads; lia). clear - Hheads H0. lia. }
    exists st', s'. split; [|exact I']. rewrite <- E'. f_equal. f_equal. rewrite map_app, concat_app, app_length. cbn [map concat].
    rewrite app_nil_r, Nat.add_assoc. reflexivity.
  Qed.
End Load.
