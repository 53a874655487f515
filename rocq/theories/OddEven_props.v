(* OddEven_props.v - C13: Amiga odd/even interleave. *)
From Verif Require Import Base Base_lemmas OddEven_model OddEven_spec OddEven_proofs.
Local Open Scope N_scope.

(* Decoding two bytes gives the byte pair whose odd bits are the first byte and whose even bits are
   the second. *)
Theorem C13_decode_u8_pair : forall o e hi lo, o < 2 ^ 8 -> e < 2 ^ 8 ->
  oe_decode_u8_pair o e = (hi, lo) ->
  hi < 2 ^ 8 /\ lo < 2 ^ 8 /\ is_odd_half 8 (hi * 2 ^ 8 + lo) o /\ is_even_half 8 (hi * 2 ^ 8 + lo) e.
Proof. exact decode8_spec. Qed.
Example C13_decode_u8_pair_ex : oe_decode_u8_pair 0xF0 0x3C = (0xAF, 0x50). Proof. vm_compute; reflexivity. Qed.

Theorem C13_decode_u32_pair : forall o e hi lo, o < 2 ^ 32 -> e < 2 ^ 32 ->
  oe_decode_u32_pair o e = (hi, lo) ->
  hi < 2 ^ 32 /\ lo < 2 ^ 32 /\ is_odd_half 32 (hi * 2 ^ 32 + lo) o /\ is_even_half 32 (hi * 2 ^ 32 + lo) e.
Proof. exact decode32p_spec. Qed.
Example C13_decode_u32_pair_ex : oe_decode_u32_pair 0xFFFFFFFF 0x0 = (0xAAAAAAAA, 0xAAAAAAAA).
Proof. vm_compute; reflexivity. Qed.

Theorem C13_decode_u32 : forall x, x < 2 ^ 32 ->
  is_odd_half 16 (oe_decode_u32 x) (x / 2 ^ 16) /\ is_even_half 16 (oe_decode_u32 x) (x mod 2 ^ 16).
Proof. exact decode32_spec. Qed.
Example C13_decode_u32_ex : oe_decode_u32 0xFFFF0000 = 0xAAAAAAAA. Proof. vm_compute; reflexivity. Qed.

(* Whole buffers: decoding the Amiga encoding (specification) of any even-length buffer gives it back. *)
Theorem C13_decode_u8_buf : forall l dst n, length l = (2 * n)%nat -> length dst = length l ->
  Forall (fun x => x < 2 ^ 8) l ->
  length (amiga_encode 8 l) = length l /\ oe_decode_u8_buf (amiga_encode 8 l) dst = l.
Proof.
  intros l dst n Hl Hd F. apply (decode_buf_gen 8 oe_decode_u8_pair n l dst); auto; [exact decode8_spec|lia].
Qed.
Example C13_decode_u8_buf_ex :
  amiga_encode 8 [0xAF; 0x50; 0xFF; 0x00] = [0xF0; 0xF0; 0x3C; 0xF0] /\
  oe_decode_u8_buf [0xF0; 0xF0; 0x3C; 0xF0] [0; 0; 0; 0] = [0xAF; 0x50; 0xFF; 0x00].
Proof. split; vm_compute; reflexivity. Qed.

Theorem C13_decode_u32_buf : forall l dst n, length l = (2 * n)%nat -> length dst = length l ->
  Forall (fun x => x < 2 ^ 32) l ->
  length (amiga_encode 32 l) = length l /\ oe_decode_u32_buf (amiga_encode 32 l) dst = l.
Proof.
  intros l dst n Hl Hd F. apply (decode_buf_gen 32 oe_decode_u32_pair n l dst); auto; [exact decode32p_spec|lia].
Qed.

(* The clock-aligned single-word forms round trip, and touch only the first 8 bytes. *)
Theorem C13_mfm_u32 : forall v buf, v < 2 ^ 32 -> (8 <= length buf)%nat ->
  oe_decode_raw_u32 (oe_encode_mfm_u32 v buf) = v /\ length (oe_encode_mfm_u32 v buf) = length buf /\
  skipn 8 (oe_encode_mfm_u32 v buf) = skipn 8 buf.
Proof. exact mfm_u32_roundtrip. Qed.
Theorem C13_fm_u32 : forall v buf, v < 2 ^ 32 -> (8 <= length buf)%nat ->
  oe_decode_raw_u32 (oe_encode_fm_u32 v buf) = v /\ length (oe_encode_fm_u32 v buf) = length buf /\
  skipn 8 (oe_encode_fm_u32 v buf) = skipn 8 buf.
Proof. exact fm_u32_roundtrip. Qed.
Example C13_mfm_u32_ex : oe_encode_mfm_u32 0xDEADBEEF (repeat 0 9) = [0x45; 0x54; 0x55; 0x55; 0x54; 0x05; 0x14; 0x45; 0].
Proof. vm_compute; reflexivity. Qed.

(* Encoding: the even half is right ... *)
Theorem C13_encode_u8_even : forall x y, x < 2 ^ 8 -> y < 2 ^ 8 ->
  is_even_half 8 (x * 2 ^ 8 + y) (snd (oe_encode_u8_pair x y)).
Proof. intros x y Hx Hy. destruct (oe_encode_u8_pair x y) as [o e] eqn:E. apply (encode8_spec x y o e); auto. Qed.
Theorem C13_encode_u32_even : forall x y, x < 2 ^ 32 -> y < 2 ^ 32 ->
  is_even_half 32 (x * 2 ^ 32 + y) (snd (oe_encode_u32_pair x y)).
Proof. intros x y Hx Hy. destruct (oe_encode_u32_pair x y) as [o e] eqn:E. apply (encode32p_spec x y o e); auto. Qed.
(* ... but of the odd bits only every second one survives, stored twice: bit j of the odd half is bit
   4*(j/2)+3 of the word, instead of bit 2j+1. *)
Theorem C13_encode_u8_odd : forall x y j, x < 2 ^ 8 -> y < 2 ^ 8 -> j < 8 ->
  N.testbit (fst (oe_encode_u8_pair x y)) j = N.testbit (x * 2 ^ 8 + y) (4 * (j / 2) + 3).
Proof. intros x y j Hx Hy Hj. destruct (oe_encode_u8_pair x y) as [o e] eqn:E. apply (encode8_spec x y o e); auto. Qed.
Theorem C13_encode_u32_odd : forall x y j, x < 2 ^ 32 -> y < 2 ^ 32 -> j < 32 ->
  N.testbit (fst (oe_encode_u32_pair x y)) j = N.testbit (x * 2 ^ 32 + y) (4 * (j / 2) + 3).
Proof. intros x y j Hx Hy Hj. destruct (oe_encode_u32_pair x y) as [o e] eqn:E. apply (encode32p_spec x y o e); auto. Qed.
(* So the round trip fails: two different inputs even have the same encoding. *)
Theorem C13_encode_roundtrip_refuted :
  (exists x y, x < 2 ^ 8 /\ y < 2 ^ 8 /\
    (let (o, e) := oe_encode_u8_pair x y in oe_decode_u8_pair o e) <> (x, y)) /\
  (exists x y x' y', (x, y) <> (x', y') /\ oe_encode_u8_pair x y = oe_encode_u8_pair x' y') /\
  (exists x, x < 2 ^ 32 /\ oe_decode_u32 (oe_encode_u32 x) <> x) /\
  (exists x y, x < 2 ^ 32 /\ y < 2 ^ 32 /\
    (let (o, e) := oe_encode_u32_pair x y in oe_decode_u32_pair o e) <> (x, y)) /\
  (exists l d, length l = 4%nat /\ oe_encode_u8_buf l (repeat 0 4) = Ok d /\ oe_decode_u8_buf d (repeat 0 4) <> l).
Proof.
  split; [exists 0, 2; repeat split; vm_compute; congruence|].
  split; [exists 0, 2, 0, 0; split; [congruence|vm_compute; reflexivity]|].
  split; [exists 2; split; vm_compute; congruence|].
  split; [exists 0, 2; repeat split; vm_compute; congruence|].
  exists [0; 2; 0; 2]; eexists; repeat split; vm_compute; congruence.
Qed.

Print Assumptions C13_decode_u8_pair.
Print Assumptions C13_decode_u32_pair.
Print Assumptions C13_decode_u32.
Print Assumptions C13_decode_u8_buf.
Print Assumptions C13_decode_u32_buf.
Print Assumptions C13_mfm_u32.
Print Assumptions C13_fm_u32.
Print Assumptions C13_encode_u8_even.
Print Assumptions C13_encode_u32_even.
Print Assumptions C13_encode_u8_odd.
Print Assumptions C13_encode_u32_odd.
Print Assumptions C13_encode_roundtrip_refuted.
