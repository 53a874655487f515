(* BitRing_model.v - src/bit_ring/mod.rs: the circular bit buffer. *)
From Verif Require Import Base.

(* mod.rs 76-81 (BitVec is a list of bool). *)
Record BitRing : Set := mkRing {
  r_bits : list bool; r_wrap : nat; r_cursor : nat; r_wrapv : option bool }.

(* mod.rs 84-94, 97-108, 138-145 *)
Definition ring_from (bits : list bool) : BitRing := mkRing bits (length bits) 0 None.
Definition ring_from_bytes (bytes : list N) : BitRing := ring_from (flat_map byte_bits bytes).
Definition ring_from_elem (len : nat) (elem : bool) : BitRing := ring_from (repeat elem len).

(* mod.rs 149-163 *)
Definition ring_len (r : BitRing) : nat := length (r_bits r).
Definition ring_is_empty (r : BitRing) : bool := match r_bits r with [] => true | _ => false end.

(* `index % self.wrap` panics when wrap is 0 *)
Definition ring_mod (r : BitRing) (i : nat) : outcome nat :=
  match r_wrap r with O => Panic | _ => Ok (i mod r_wrap r) end.

(* mod.rs 185-192; BitVec::set panics out of range *)
Definition bits_set (l : list bool) (i : nat) (b : bool) : outcome (list bool) :=
  if i <? length l then Ok (upd l i b) else Panic.
Definition ring_set (r : BitRing) (i : nat) (b : bool) : outcome BitRing :=
  let! j := (if i <? r_wrap r then Ok i else ring_mod r i) in
  let! l := bits_set (r_bits r) j b in
  Ok (mkRing l (r_wrap r) (r_cursor r) (r_wrapv r)).

(* mod.rs 196-198 *)
Definition ring_set_wrap (r : BitRing) (w : nat) : BitRing :=
  mkRing (r_bits r) (Nat.min w (length (r_bits r))) (r_cursor r) (r_wrapv r).
(* mod.rs 202-204 *)
Definition ring_set_wrap_value (r : BitRing) (v : option bool) : BitRing :=
  mkRing (r_bits r) (r_wrap r) (r_cursor r) v.

(* mod.rs 248-260 *)
Definition ring_get (r : BitRing) (i : nat) : outcome bool :=
  if i <? r_wrap r then oindex (r_bits r) i
  else match r_wrapv r with
       | Some v => Ok v
       | None => let! j := ring_mod r i in oindex (r_bits r) j
       end.

(* mod.rs 207-217, 222-226: the ring's own Iterator (consuming view with a cursor) *)
Definition ring_next (r : BitRing) : outcome (bool * BitRing) :=
  let! b := oindex (r_bits r) (r_cursor r) in
  let! c := ring_mod r (r_cursor r + 1) in
  Ok (b, mkRing (r_bits r) (r_wrap r) c (r_wrapv r)).

(* mod.rs 230-242: Read; returns the bytes and the advanced ring *)
Definition ring_read_byte (r : BitRing) : outcome (N * BitRing) :=
  ofold (fun '(byte, r) _ => let! (b, r') := ring_next r in Ok (as_u8 (2 * byte + b2N b), r'))
        (seq 0 8) (0%N, r).
Fixpoint ring_read (n : nat) (r : BitRing) : outcome (list N * BitRing) :=
  match n with
  | O => Ok ([], r)
  | S k => let! (b, r1) := ring_read_byte r in
           let! (l, r2) := ring_read k r1 in Ok (b :: l, r2)
  end.

(* mod.rs 49-59, 124-130: the single-revolution iterator, fully collected *)
Definition ring_iter_revolution (r : BitRing) : outcome (list bool) :=
  omap (@rev bool) (ofold (fun acc i => let! b := oindex (r_bits r) i in Ok (b :: acc)) (seq 0 (r_wrap r)) []).
(* mod.rs 49-59, 114-120: the first k items of the "infinite" iterator *)
Definition ring_iter (k : nat) (r : BitRing) : outcome (list bool) :=
  omap (@rev bool) (ofold (fun acc i => let! b := oindex (r_bits r) i in Ok (b :: acc)) (seq 0 k) []).
