(* Pce_proofs.v - the PCE chunk layer. *)
From Verif Require Import Base Base_lemmas Mfm_spec Mfm_proofs Crc_spec Crc_proofs Crc32_model Crc32_spec Crc32_proofs
  Chs_model BitRing_model Mfm_model Types_model System34_model MetaSector_model BitStream_model DiskImage_model Format_model Raw_model Pce_model.
From Coq Require Import Lia.

Lemma be32_length x : length (be32 x) = 4. Proof. reflexivity. Qed.
Lemma be32_ok x : bytes_ok (be32 x) = true.
Proof.
  unfold be32, bytes_ok, is_byte. cbn [forallb]. rewrite !andb_true_iff, !N.ltb_lt.
  repeat split; apply N.mod_lt; discriminate.
Qed.
Lemma be32_val x : (x < 4294967296)%N ->
  ((((x / 16777216) mod 256 * 256 + (x / 65536) mod 256) * 256 + (x / 256) mod 256) * 256 + x mod 256 = x)%N.
Proof.
  intros H.
  assert (E1 : (x / 65536 = x / 256 / 256)%N) by (rewrite N.div_div by discriminate; reflexivity).
  assert (E2 : (x / 16777216 = x / 256 / 256 / 256)%N) by (rewrite !N.div_div by discriminate; reflexivity).
  rewrite E1, E2.
  pose proof (N.div_mod x 256 ltac:(discriminate)) as A.
  pose proof (N.div_mod (x / 256) 256 ltac:(discriminate)) as B.
  pose proof (N.div_mod (x / 256 / 256) 256 ltac:(discriminate)) as C.
  assert (Hs : (x / 256 / 256 / 256 < 256)%N).
  { rewrite !N.div_div by discriminate. apply N.div_lt_upper_bound; [discriminate|]. exact H. }
  rewrite (N.mod_small (x / 256 / 256 / 256)) by exact Hs.
  clear E1 E2 H Hs. revert A B C.
  generalize (x mod 256)%N ((x / 256) mod 256)%N ((x / 256 / 256) mod 256)%N (x / 256 / 256 / 256)%N (x / 256 / 256)%N (x / 256)%N.
  intros. lia.
Qed.
Lemma read_be32_app x r : (x < 4294967296)%N -> read_be32 (be32 x ++ r) = Ok (x, r).
Proof.
  intros H. unfold be32. cbn [app read_be32]. rewrite be32_val by exact H. reflexivity.
Qed.
Lemma as_u32_small x : (x < 4294967296)%N -> as_u32 x = x.
Proof. apply N.mod_small. Qed.
Lemma read_exact_app n a b : length a = n -> read_exact n (a ++ b) = Ok (a, b).
Proof.
  intros <-. unfold read_exact. rewrite app_length.
  replace (length a + length b <? length a) with false by (symmetry; apply Nat.ltb_ge; lia).
  rewrite firstn_app, Nat.sub_diag, firstn_all, firstn_O, app_nil_r.
  rewrite skipn_app, Nat.sub_diag, skipn_all. reflexivity.
Qed.

(* reading a chunk whose parts are known *)
Lemma read_parts id size data c rest : length id = 4 -> N.to_nat size = length data -> (size < 4294967296)%N -> (c < 4294967296)%N ->
  read_chunk (id ++ be32 size ++ data ++ be32 c ++ rest) =
  if (MAXIMUM_CHUNK_SIZE <? size)%N then Err FormatParseError
  else if (c =? pce_crc (id ++ be32 size ++ data))%N then Ok (id, data, rest) else Err CrcError.
Proof.
  intros Hid Hs Hs32 Hc. unfold read_chunk. rewrite (read_exact_app 4 id) by exact Hid. cbn [obind].
  rewrite read_be32_app by exact Hs32. cbn [obind].
  destruct (MAXIMUM_CHUNK_SIZE <? size)%N; [reflexivity|].
  replace (id ++ be32 size ++ data ++ be32 c ++ rest) with ((id ++ be32 size ++ data) ++ be32 c ++ rest) by (rewrite <- !app_assoc; reflexivity).
  rewrite read_exact_app by (rewrite !app_length, be32_length; lia). cbn [obind].
  rewrite read_be32_app by exact Hc. cbn [obind].
  destruct (c =? _)%N; [|reflexivity]. f_equal. f_equal. f_equal.
  rewrite app_assoc. rewrite skipn_app, app_length, be32_length, Hid, Nat.sub_diag, skipn_O.
  rewrite skipn_all2 by (rewrite app_length, be32_length; lia). reflexivity.
Qed.
Lemma write_chunk_parts id data : length data < N.to_nat 4294967296 ->
  write_chunk id data = id ++ be32 (N.of_nat (length data)) ++ data ++ be32 (pce_crc (id ++ be32 (N.of_nat (length data)) ++ data)).
Proof.
  intros H. unfold write_chunk. rewrite as_u32_small by lia. rewrite <- !app_assoc. reflexivity.
Qed.
Lemma pce_lt l : (pce_crc l < 4294967296)%N. Proof. exact (pce_crc_lt l). Qed.
Lemma read_write_chunk id data rest : length id = 4 -> length data < N.to_nat 4294967296 ->
  read_chunk (write_chunk id data ++ rest) =
  if (MAXIMUM_CHUNK_SIZE <? N.of_nat (length data))%N then Err FormatParseError else Ok (id, data, rest).
Proof.
  intros Hid Hl. rewrite write_chunk_parts by exact Hl. rewrite <- !app_assoc.
  rewrite read_parts by (auto using pce_lt; try apply pce_lt; lia). rewrite N.eqb_refl. reflexivity.
Qed.
Lemma write_chunk_length id data : length id = 4 -> length (write_chunk id data) = length data + 12.
Proof. intros H. unfold write_chunk. rewrite !app_length, !be32_length, H. lia. Qed.
Lemma write_chunk_ok id data : bytes_ok id = true -> bytes_ok data = true -> bytes_ok (write_chunk id data) = true.
Proof. intros A B. unfold write_chunk. rewrite !bytes_ok_app, !be32_ok, A, B. reflexivity. Qed.

(* a chunk followed by its CRC has CRC 0 *)
Lemma bits_of_app a b : bits_of (a ++ b) = bits_of a ++ bits_of b.
Proof. apply flat_map_app. Qed.
Lemma bits_val_be32 c : (c < 4294967296)%N -> bits_val (bits_of (be32 c)) = c.
Proof.
  intros H. 
  assert (A : forall b l, (b < 256)%N -> bits_val (byte_bits b ++ l) = (b * 2 ^ N.of_nat (length l) + bits_val l)%N).
  { intros b l Hb. rewrite <- (bits_val_byte_bits b Hb) at 2. generalize (byte_bits b). clear. intros a.
    induction a as [|x a IH]; [cbn [app]; change (bits_val []) with 0%N; rewrite N.mul_0_l; reflexivity|].
    cbn [app]. rewrite !bits_val_cons, IH, app_length, Nat2N.inj_add, N.pow_add_r. destruct x; lia. }
  unfold be32, bits_of. cbn [flat_map]. rewrite !A by (apply N.mod_lt; discriminate).
  cbn [length app byte_bits map seq]. rewrite app_nil_r || idtac. 
  change (bits_val []) with 0%N.
  rewrite <- (be32_val c H) at 5.
  change (2 ^ N.of_nat _)%N with 16777216%N at 1.
  match goal with |- context [N.of_nat ?n] => idtac end.
  cbn [N.of_nat Pos.of_succ_nat]. lia.
Qed.
Lemma chunk_residue buf c : bytes_ok buf = true -> (c < 4294967296)%N ->
  crcb 32 0x1EDC6F41 0 (bits_of (buf ++ be32 c)) = 0%N <-> c = pce_crc buf.
Proof.
  intros Hb Hc. rewrite bits_of_app.
  rewrite (crcb_check 32 0x1EDC6F41 HW32 HP32 0 (bits_of buf) (bits_of (be32 c))); [|reflexivity|reflexivity|].
  - rewrite bits_val_be32, <- pce_crc_crcb by auto. reflexivity.
  - rewrite bits_of_length. reflexivity.
Qed.
Lemma be32_of_bytes a b c d : bytes_ok [a; b; c; d] = true ->
  be32 (((a * 256 + b) * 256 + c) * 256 + d) = [a; b; c; d] /\ (((a * 256 + b) * 256 + c) * 256 + d < 4294967296)%N.
Proof.
  unfold bytes_ok, is_byte. cbn [forallb]. rewrite !andb_true_iff, !N.ltb_lt. intros (Ha & Hb & Hc & Hd & _).
  split; [|lia]. unfold be32.
  assert (Q1 : forall x y, (y < 256 -> (x * 256 + y) / 256 = x)%N).
  { intros x y Hy. rewrite N.div_add_l by discriminate. rewrite (N.div_small y) by exact Hy. lia. }
  assert (Q2 : forall x y, (y < 256 -> (x * 256 + y) mod 256 = y)%N).
  { intros x y Hy. rewrite N.add_comm, N.mod_add by discriminate. apply N.mod_small; exact Hy. }
  assert (E1 : forall x, (x / 65536 = x / 256 / 256)%N) by (intros; rewrite N.div_div by discriminate; reflexivity).
  assert (E2 : forall x, (x / 16777216 = x / 256 / 256 / 256)%N) by (intros; rewrite !N.div_div by discriminate; reflexivity).
  rewrite E1, E2, !Q1, !Q2 by assumption. rewrite (N.mod_small a) by exact Ha. reflexivity.
Qed.
Lemma split_at {A} n (l : list A) : n <= length l -> exists a b, l = a ++ b /\ length a = n.
Proof. intros H. exists (firstn n l), (skipn n l). rewrite firstn_skipn, firstn_length. split; auto; lia. Qed.
Lemma four_bytes (l : list N) : length l = 4 -> bytes_ok l = true -> exists c, l = be32 c /\ (c < 4294967296)%N.
Proof.
  intros Hl Hb. destruct l as [|a [|b [|c [|d [|]]]]]; try discriminate.
  destruct (be32_of_bytes a b c d Hb) as [E H]. eauto.
Qed.

Lemma slice_mid {A} (a b r : list A) p n : length a = p -> length b = n -> slice (a ++ b ++ r) p n = b.
Proof.
  intros <- <-. unfold slice. rewrite skipn_app, Nat.sub_diag, skipn_all. cbn [app skipn].
  rewrite firstn_app, Nat.sub_diag, firstn_all, firstn_O, app_nil_r. reflexivity.
Qed.
(* A chunk damaged within 32 consecutive bits, with an intact size field, is rejected. *)
Lemma damaged_chunk id data cw rest :
  length id = 4 -> bytes_ok id = true -> bytes_ok data = true -> (N.of_nat (length data) <= MAXIMUM_CHUNK_SIZE)%N ->
  bytes_ok cw = true -> burst bits_of 32 cw (write_chunk id data) ->
  slice cw 4 4 = slice (write_chunk id data) 4 4 ->
  read_chunk (cw ++ rest) = Err CrcError.
Proof.
  intros Hid Hido Hd Hmax Hc (Hl & Hne & p & Hp) Hsz.
  assert (Hd32 : length data < N.to_nat 4294967296) by (unfold MAXIMUM_CHUNK_SIZE in Hmax; lia).
  rewrite write_chunk_length in Hl by exact Hid.
  destruct (split_at 4 cw) as (id' & r1 & -> & L1); [lia|]. rewrite app_length in Hl.
  destruct (split_at 4 r1) as (sz & r2 & -> & L2); [lia|]. rewrite app_length in Hl.
  destruct (split_at (length data) r2) as (data' & r3 & -> & L3); [lia|]. rewrite app_length in Hl.
  rewrite !bytes_ok_app, !andb_true_iff in Hc. destruct Hc as (C1 & C2 & C3 & C4).
  destruct (four_bytes r3 ltac:(lia) C4) as (c & -> & Hc32).
  assert (Es : sz = be32 (N.of_nat (length data))).
  { rewrite write_chunk_parts in Hsz by exact Hd32. rewrite !slice_mid in Hsz by (auto; reflexivity). exact Hsz. }
  subst sz. rewrite <- !app_assoc. rewrite read_parts by (auto; lia).
  replace (MAXIMUM_CHUNK_SIZE <? N.of_nat (length data))%N with false by (symmetry; apply N.ltb_ge; exact Hmax).
  destruct (N.eqb_spec c (pce_crc (id' ++ be32 (N.of_nat (length data)) ++ data'))) as [E|E]; [|reflexivity]. exfalso.
  set (size := N.of_nat (length data)) in *.
  assert (B1 : bytes_ok (id' ++ be32 size ++ data') = true) by (rewrite !bytes_ok_app, be32_ok, C1, C3; reflexivity).
  assert (B2 : bytes_ok (id ++ be32 size ++ data) = true) by (rewrite !bytes_ok_app, be32_ok, Hido, Hd; reflexivity).
  pose proof (proj2 (chunk_residue _ c B1 Hc32) E) as R1.
  pose proof (proj2 (chunk_residue _ _ B2 (pce_lt _)) eq_refl) as R2.
  assert (W : write_chunk id data = (id ++ be32 size ++ data) ++ be32 (pce_crc (id ++ be32 size ++ data)))
    by (rewrite write_chunk_parts by exact Hd32; rewrite <- !app_assoc; reflexivity).
  assert (W' : id' ++ be32 size ++ data' ++ be32 c = (id' ++ be32 size ++ data') ++ be32 c) by (rewrite <- !app_assoc; reflexivity).
  rewrite W in Hp, Hne. rewrite W' in Hp, Hne.
  refine (crcb_burst_differ 0x1EDC6F41 0 _ _ p HP32 eq_refl eq_refl _ _ Hp _).
  - rewrite !bits_of_length, !app_length, !be32_length. lia.
  - intros EB. apply Hne. apply bits_of_inj; [| |exact EB]; rewrite bytes_ok_app, be32_ok, ?B1, ?B2; reflexivity.
  - rewrite R1, R2. reflexivity.
Qed.

(* ---- the chunk types ---- *)
Lemma pri_id_length t : length (pri_id t) = 4. Proof. destruct t; reflexivity. Qed.
Lemma pri_id_ok t : bytes_ok (pri_id t) = true. Proof. destruct t; reflexivity. Qed.
Lemma pri_type_id t : pri_type (pri_id t) = t. Proof. destruct t; reflexivity. Qed.
Lemma pri_read_write t data rest : (N.of_nat (length data) <= MAXIMUM_CHUNK_SIZE)%N ->
  pri_read_chunk (pri_write_chunk t data ++ rest) = Ok (t, data, rest).
Proof.
  intros H. unfold pri_read_chunk, pri_write_chunk.
  rewrite read_write_chunk by (auto using pri_id_length; unfold MAXIMUM_CHUNK_SIZE in H; lia).
  replace (MAXIMUM_CHUNK_SIZE <? N.of_nat (length data))%N with false by (symmetry; apply N.ltb_ge; exact H).
  cbn [obind]. rewrite pri_type_id. reflexivity.
Qed.
Lemma footer_is_chunk : pri_footer = pri_write_chunk PriEnd [].
Proof. vm_compute. reflexivity. Qed.

(* a chunk takes at least twelve bytes *)
Lemma read_be32_rest l x r : read_be32 l = Ok (x, r) -> length l = length r + 4.
Proof. destruct l as [|a [|b [|c [|d l]]]]; try discriminate. cbn [read_be32]. intros E. assert (r = l) by congruence. subst. cbn [length]. lia. Qed.
Lemma read_exact_rest n l a r : read_exact n l = Ok (a, r) -> length l = n + length r.
Proof.
  unfold read_exact. destruct (Nat.ltb_spec (length l) n); [discriminate|]. intros E.
  assert (r = skipn n l) by congruence. subst. rewrite skipn_length. lia.
Qed.
Lemma read_chunk_rest l id data r : read_chunk l = Ok (id, data, r) -> length l = length data + 12 + length r.
Proof.
  unfold read_chunk. destruct (read_exact 4 l) as [[i r0]| |]; cbn [obind]; try discriminate.
  destruct (read_be32 r0) as [[size r1]| |]; cbn [obind]; try discriminate.
  destruct (MAXIMUM_CHUNK_SIZE <? size)%N; [discriminate|].
  destruct (read_exact (N.to_nat size + 8) l) as [[buf r2]| |] eqn:E2; cbn [obind]; try discriminate.
  destruct (read_be32 r2) as [[c r3]| |] eqn:E3; cbn [obind]; try discriminate.
  destruct (_ =? _)%N; [|discriminate]. intros E. assert (data = skipn 8 buf /\ r = r3) as [-> ->] by (split; congruence).
  apply read_be32_rest in E3.
  assert (Lb : length buf = N.to_nat size + 8).
  { unfold read_exact in E2. destruct (Nat.ltb_spec (length l) (N.to_nat size + 8)); [discriminate|].
    assert (buf = firstn (N.to_nat size + 8) l) by congruence. subst. rewrite firstn_length. lia. }
  apply read_exact_rest in E2. rewrite skipn_length. lia.
Qed.
Lemma pri_read_rest l t data r : pri_read_chunk l = Ok (t, data, r) -> length l = length data + 12 + length r.
Proof.
  unfold pri_read_chunk. destruct (read_chunk l) as [[[id dd] rr]| |] eqn:E; cbn [obind]; try discriminate.
  intros H. assert (dd = data /\ rr = r) as [-> ->] by (split; congruence). eapply read_chunk_rest; eauto.
Qed.
(* so the fuel of the loop is irrelevant *)
Lemma pri_loop_fuel rnd scale : forall f f' s typ data rest, length rest <= f -> length rest <= f' ->
  pri_loop rnd scale f s typ data rest = pri_loop rnd scale f' s typ data rest.
Proof.
  induction f as [|f IH]; intros f' s typ data rest H H'.
  - destruct rest; [|cbn in H; lia]. destruct f'; destruct typ; cbn [pri_loop]; auto; destruct (pri_step _ _ _ _ _); reflexivity.
  - destruct f' as [|f'].
    + destruct rest; [|cbn in H'; lia]. destruct typ; cbn [pri_loop]; auto; destruct (pri_step _ _ _ _ _); reflexivity.
    + assert (G : forall s', (let! (typ, data, rest) := pri_read_chunk rest in pri_loop rnd scale f s' typ data rest) =
                             (let! (typ, data, rest) := pri_read_chunk rest in pri_loop rnd scale f' s' typ data rest)).
      { intros s'. destruct (pri_read_chunk rest) as [[[t2 d2] r2]| |] eqn:E; cbn [obind]; auto.
        apply pri_read_rest in E. apply IH; lia. }
      destruct typ; cbn [pri_loop]; auto; destruct (pri_step _ _ _ _ _); cbn [obind]; auto.
Qed.

(* ---- loading a list of chunks ---- *)
Definition chunk_bytes (cs : list (PriChunkType * list N)) : list N := flat_map (fun c => pri_write_chunk (fst c) (snd c)) cs.
Definition readable (c : PriChunkType * list N) : Prop := fst c <> PriEnd /\ (N.of_nat (length (snd c)) <= MAXIMUM_CHUNK_SIZE)%N.
Definition step_of rnd scale s (c : PriChunkType * list N) : outcome PriLoad := pri_step rnd scale s (fst c) (snd c).
Lemma pri_loop_chunks rnd scale rest : forall cs s c f, Forall readable cs -> fst c <> PriEnd -> length cs < f ->
  pri_loop rnd scale f s (fst c) (snd c) (chunk_bytes cs ++ pri_footer ++ rest) = ofold (step_of rnd scale) (c :: cs) s.
Proof.
  induction cs as [|c2 cs IH]; intros s c f Hr Hc Hf; (destruct f as [|f]; [cbn in Hf; lia|]).
  - assert (E : pri_loop rnd scale (S f) s (fst c) (snd c) (chunk_bytes [] ++ pri_footer ++ rest) =
                let! s := pri_step rnd scale s (fst c) (snd c) in
                let! (typ, data, rest) := pri_read_chunk (pri_footer ++ rest) in pri_loop rnd scale f s typ data rest)
      by (destruct (fst c); try congruence; reflexivity).
    rewrite E, footer_is_chunk, pri_read_write by (cbn; unfold MAXIMUM_CHUNK_SIZE; lia).
    cbn [ofold]. unfold step_of at 1. destruct (pri_step rnd scale s (fst c) (snd c)); cbn [obind]; auto. destruct f; reflexivity.
  - inversion Hr as [|? ? [Ha Hb] Hr']; subst.
    assert (E : pri_loop rnd scale (S f) s (fst c) (snd c) (chunk_bytes (c2 :: cs) ++ pri_footer ++ rest) =
                let! s := pri_step rnd scale s (fst c) (snd c) in
                let! (typ, data, rest) := pri_read_chunk (chunk_bytes (c2 :: cs) ++ pri_footer ++ rest) in pri_loop rnd scale f s typ data rest)
      by (destruct (fst c); try congruence; reflexivity).
    rewrite E. unfold chunk_bytes at 1. cbn [flat_map]. fold (chunk_bytes cs). rewrite <- app_assoc, pri_read_write by exact Hb.
    change (ofold (step_of rnd scale) (c :: c2 :: cs) s) with (let! s' := step_of rnd scale s c in ofold (step_of rnd scale) (c2 :: cs) s').
    unfold step_of at 1.
    destruct (pri_step rnd scale s (fst c) (snd c)) as [s'| |]; cbn [obind]; auto. apply IH; auto. cbn in Hf; lia.
Qed.
Lemma pri_load_chunks rnd scale d cs rest : Forall readable cs ->
  pri_load_image rnd scale d (chunk_bytes ((PriFileHeader, [0; 0; 0; 0]%N) :: cs) ++ pri_footer ++ rest) =
  let! s := ofold (step_of rnd scale) cs (mkPL d (mkCh 0 0) 0 0 0 [] [] None []) in
  match pl_rate s with
  | None => Panic
  | Some _ => Ok (with_geom (pl_img s) (mkCh (as_u16 (N.of_nat (length (pl_cyls s)))) (as_u8 (N.of_nat (length (pl_heads s))))), pl_rates s)
  end.
Proof.
  intros Hr. unfold pri_load_image. set (file := chunk_bytes _ ++ _ ++ _) in |- * at 2.
  assert (Hlen : length cs < length file).
  { unfold file. rewrite app_length. unfold chunk_bytes. cbn [flat_map fst snd]. rewrite app_length.
    unfold pri_write_chunk at 1. rewrite write_chunk_length by reflexivity.
    assert (L : length cs <= length (flat_map (fun c => pri_write_chunk (fst c) (snd c)) cs)).
    { clear. induction cs as [|c cs IH]; [cbn; lia|]. cbn [flat_map length]. rewrite app_length.
      unfold pri_write_chunk at 1. rewrite write_chunk_length by apply pri_id_length. lia. }
    cbn [length]. lia. }
  unfold chunk_bytes at 1. cbn [flat_map fst snd]. fold (chunk_bytes cs). rewrite <- app_assoc.
  rewrite pri_read_write by (cbn; unfold MAXIMUM_CHUNK_SIZE; lia). cbn [obind].
  change (length [0; 0; 0; 0]%N <? 4) with false. cbn iota.
  rewrite (pri_loop_chunks rnd scale rest cs _ (PriFileHeader, [0; 0; 0; 0]%N)) by (auto; discriminate).
  cbn [ofold]. unfold step_of at 1. cbn [fst snd pri_step obind]. reflexivity.
Qed.
