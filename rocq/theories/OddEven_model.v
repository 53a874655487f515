(* OddEven_model.v - the Amiga odd/even helpers of
   src/track_schema/meta_encoding/odd_even.rs.
   Unsigned integers are N; `a << k` of an n-bit type is shiftl followed by truncation to n bits. *)
From Verif Require Import Base.
Local Open Scope N_scope.

Definition shl (w : N) (x k : N) : N := N.land (N.shiftl x k) (N.ones w).

(* odd_even.rs:59-74 odd_even_decode_raw_u32_from_slice *)
Definition be32 (a b c d : N) : N := N.lor (N.shiftl a 24) (N.lor (N.shiftl b 16) (N.lor (N.shiftl c 8) d)).
Definition oe_decode_raw_u32 (bytes : list N) : N :=
  match bytes with
  | b0 :: b1 :: b2 :: b3 :: b4 :: b5 :: b6 :: b7 :: _ =>
      let odd_long := be32 b0 b1 b2 b3 in
      let even_long := be32 b4 b5 b6 b7 in
      N.lor (shl 32 (N.land odd_long 0x55555555) 1) (N.land even_long 0x55555555)
  | _ => 0
  end.

(* odd_even.rs:76-93 odd_even_decode_u8_pair *)
Definition oe_decode_u8_pair (o e : N) : N * N :=
  let o := shl 16 o 8 in
  let e := N.land (N.lor e (shl 16 e 4)) 0x0F0F in
  let e := N.land (N.lor e (shl 16 e 2)) 0x3333 in
  let e := N.land (N.lor e (shl 16 e 1)) 0x5555 in
  let o := N.land (N.lor o (N.shiftr o 4)) 0xF0F0 in
  let o := N.land (N.lor o (N.shiftr o 2)) 0xCCCC in
  let o := N.land (N.lor o (N.shiftr o 1)) 0xAAAA in
  let o := N.lor o e in
  (N.land (N.shiftr o 8) 0xFF, N.land o 0xFF).

(* odd_even.rs:95-113 odd_even_encode_u8_pair *)
Definition oe_encode_u8_pair (x y : N) : N * N :=
  let w := N.lor (shl 16 x 8) y in
  let e := N.land w 0x5555 in
  let o := N.shiftr (N.land w 0xAAAA) 1 in
  let e := N.land (N.lor e (N.shiftr e 1)) 0x3333 in
  let e := N.land (N.lor e (N.shiftr e 2)) 0x0F0F in
  let e := N.land (N.lor e (N.shiftr e 4)) 0x00FF in
  let o := N.land (N.lor o (shl 16 o 1)) 0xCCCC in
  let o := N.land (N.lor o (shl 16 o 2)) 0xF0F0 in
  let o := N.land (N.lor o (shl 16 o 4)) 0xFF00 in
  (N.land (N.shiftr o 8) 0xFF, N.land e 0xFF).

(* odd_even.rs:117-138 odd_even_decode_u32_pair *)
Definition oe_decode_u32_pair (o e : N) : N * N :=
  let o := shl 64 o 32 in
  let e := N.land (N.lor e (shl 64 e 16)) 0x0000FFFF0000FFFF in
  let e := N.land (N.lor e (shl 64 e 8)) 0x00FF00FF00FF00FF in
  let e := N.land (N.lor e (shl 64 e 4)) 0x0F0F0F0F0F0F0F0F in
  let e := N.land (N.lor e (shl 64 e 2)) 0x3333333333333333 in
  let e := N.land (N.lor e (shl 64 e 1)) 0x5555555555555555 in
  let o := N.land (N.lor o (N.shiftr o 16)) 0xFFFF0000FFFF0000 in
  let o := N.land (N.lor o (N.shiftr o 8)) 0xFF00FF00FF00FF00 in
  let o := N.land (N.lor o (N.shiftr o 4)) 0xF0F0F0F0F0F0F0F0 in
  let o := N.land (N.lor o (N.shiftr o 2)) 0xCCCCCCCCCCCCCCCC in
  let o := N.land (N.lor o (N.shiftr o 1)) 0xAAAAAAAAAAAAAAAA in
  let o := N.lor o e in
  (N.land (N.shiftr o 32) 0xFFFFFFFF, N.land o 0xFFFFFFFF).

(* odd_even.rs:140-162 odd_even_encode_u32_pair *)
Definition oe_encode_u32_pair (x y : N) : N * N :=
  let w := N.lor (shl 64 x 32) y in
  let e := N.land w 0x5555555555555555 in
  let o := N.shiftr (N.land w 0xAAAAAAAAAAAAAAAA) 1 in
  let e := N.land (N.lor e (N.shiftr e 1)) 0x3333333333333333 in
  let e := N.land (N.lor e (N.shiftr e 2)) 0x0F0F0F0F0F0F0F0F in
  let e := N.land (N.lor e (N.shiftr e 4)) 0x00FF00FF00FF00FF in
  let e := N.land (N.lor e (N.shiftr e 8)) 0x0000FFFF0000FFFF in
  let e := N.land (N.lor e (N.shiftr e 16)) 0x00000000FFFFFFFF in
  let o := N.land (N.lor o (shl 64 o 1)) 0xCCCCCCCCCCCCCCCC in
  let o := N.land (N.lor o (shl 64 o 2)) 0xF0F0F0F0F0F0F0F0 in
  let o := N.land (N.lor o (shl 64 o 4)) 0xFF00FF00FF00FF00 in
  let o := N.land (N.lor o (shl 64 o 8)) 0xFFFF0000FFFF0000 in
  let o := N.land (N.lor o (shl 64 o 16)) 0xFFFFFFFF00000000 in
  (N.land (N.shiftr o 32) 0xFFFFFFFF, N.land e 0xFFFFFFFF).

(* odd_even.rs:164-182 odd_even_decode_u32 *)
Definition oe_decode_u32 (x : N) : N :=
  let o := N.land x 0xFFFF0000 in
  let e := N.land x 0x0000FFFF in
  let e := N.land (N.lor e (shl 32 e 8)) 0x00FF00FF in
  let e := N.land (N.lor e (shl 32 e 4)) 0x0F0F0F0F in
  let e := N.land (N.lor e (shl 32 e 2)) 0x33333333 in
  let e := N.land (N.lor e (shl 32 e 1)) 0x55555555 in
  let o := N.land (N.lor o (N.shiftr o 8)) 0xFF00FF00 in
  let o := N.land (N.lor o (N.shiftr o 4)) 0xF0F0F0F0 in
  let o := N.land (N.lor o (N.shiftr o 2)) 0xCCCCCCCC in
  let o := N.land (N.lor o (N.shiftr o 1)) 0xAAAAAAAA in
  N.lor o e.

(* odd_even.rs:185-204 odd_even_encode_u32 *)
Definition oe_encode_u32 (x : N) : N :=
  let e := N.land x 0x55555555 in
  let o := N.shiftr (N.land x 0xAAAAAAAA) 1 in
  let e := N.land (N.lor e (N.shiftr e 1)) 0x33333333 in
  let e := N.land (N.lor e (N.shiftr e 2)) 0x0F0F0F0F in
  let e := N.land (N.lor e (N.shiftr e 4)) 0x00FF00FF in
  let e := N.land (N.lor e (N.shiftr e 8)) 0x0000FFFF in
  let o := N.land (N.lor o (shl 32 o 1)) 0xCCCCCCCC in
  let o := N.land (N.lor o (shl 32 o 2)) 0xF0F0F0F0 in
  let o := N.land (N.lor o (shl 32 o 4)) 0xFF00FF00 in
  let o := N.land (N.lor o (shl 32 o 8)) 0xFFFF0000 in
  N.lor o e.

(* odds.iter().zip(evens).zip(dst.chunks_exact_mut(2)): one pair per step, the rest of dst is kept. *)
Fixpoint decode_loop (pair : N -> N -> N * N) (odds evens dst : list N) : list N :=
  match odds, evens, dst with
  | o :: os, e :: es, _ :: _ :: d => let (a, b) := pair o e in a :: b :: decode_loop pair os es d
  | _, _, _ => dst
  end.
(* odd_even.rs:208-213 and 228-233: the split point is half the source length *)
Definition oe_decode_u8_buf (src dst : list N) : list N :=
  let h := (length src / 2)%nat in decode_loop oe_decode_u8_pair (firstn h src) (skipn h src) dst.
Definition oe_decode_u32_buf (src dst : list N) : list N :=
  let h := (length src / 2)%nat in decode_loop oe_decode_u32_pair (firstn h src) (skipn h src) dst.

(* the two halves of dst, written in step with pairs of src *)
Fixpoint encode_loop (pair : N -> N -> N * N) (odds evens src : list N) : list N * list N :=
  match odds, evens, src with
  | _ :: os, _ :: es, x :: y :: s =>
      let (o, e) := pair x y in let (a, b) := encode_loop pair os es s in (o :: a, e :: b)
  | _, _, _ => (odds, evens)
  end.
(* odd_even.rs:217-224 and 237-244; split_at_mut panics when dst is shorter than half of src *)
Definition oe_encode_buf (pair : N -> N -> N * N) (src dst : list N) : outcome (list N) :=
  let h := (length src / 2)%nat in
  if (length dst <? h)%nat then Panic
  else let (a, b) := encode_loop pair (firstn h dst) (skipn h dst) src in Ok (a ++ b).
Definition oe_encode_u8_buf := oe_encode_buf oe_encode_u8_pair.
Definition oe_encode_u32_buf := oe_encode_buf oe_encode_u32_pair.

(* u32::to_be_bytes *)
Definition to_be32 (x : N) : list N :=
  [N.land (N.shiftr x 24) 0xFF; N.land (N.shiftr x 16) 0xFF; N.land (N.shiftr x 8) 0xFF; N.land x 0xFF].
(* odd_even.rs:249-266 odd_even_encode_mfm_u32 *)
Definition oe_encode_mfm_u32 (value : N) (bytes : list N) : list N :=
  if (length bytes <? 8)%nat then bytes
  else to_be32 (N.land (N.shiftr value 1) 0x55555555) ++ to_be32 (N.land value 0x55555555) ++ skipn 8 bytes.
(* odd_even.rs:271-288 odd_even_encode_fm_u32 *)
Definition oe_encode_fm_u32 (value : N) (bytes : list N) : list N :=
  if (length bytes <? 8)%nat then bytes
  else to_be32 (N.lor (N.land (N.shiftr value 1) 0x55555555) 0xAAAAAAAA)
       ++ to_be32 (N.lor (N.land value 0x55555555) 0xAAAAAAAA) ++ skipn 8 bytes.
