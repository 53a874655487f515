(* Mfm_spec.v - specifications for bit rings, MFM encoding and marker search; uses no model code. *)
From Verif Require Import Base.

(* Circular reading and writing of a non-empty bit list. *)
Definition circ (l : list bool) (i : nat) : bool := nth (i mod length l) l false.
Fixpoint circ_write (l : list bool) (off : nat) (src : list bool) : list bool :=
  match src with
  | [] => l
  | b :: t => circ_write (upd l (off mod length l) b) (S off) t
  end.
(* The n bits from position i on, going round. *)
Definition window (l : list bool) (i n : nat) : list bool := map (circ l) (seq i n).
(* The n decoded data bits of MFM cells starting at clock position i. *)
Definition data_window (l : list bool) (i n : nat) : list bool :=
  map (fun k => circ l (i + 1 + 2 * k)) (seq 0 n).

Definition bits_of (data : list N) : list bool := flat_map byte_bits data.
(* Group a list of bits into bytes, most significant first. *)
Fixpoint bytes_of (n : nat) (l : list bool) : list N :=
  match n with O => [] | S k => bits_val (firstn 8 l) :: bytes_of k (skipn 8 l) end.

(* The MFM rule: a clock bit before every data bit, set exactly when both neighbours are 0. *)
Fixpoint mfm (prev : bool) (ds : list bool) : list bool :=
  match ds with [] => [] | d :: t => (negb prev && negb d) :: d :: mfm d t end.

(* Position p is an occurrence of the masked 64-bit pattern in l. *)
Definition win64 (l : list bool) (p : nat) : N := bits_val (slice l p 64).
Definition occurs (l : list bool) (mask pat : N) (p : nat) : Prop :=
  p + 64 <= length l /\ N.land (win64 l p) mask = pat.
(* p is the first occurrence at or after start that ends at or before lim. *)
Definition first_occ (l : list bool) (mask pat : N) (start lim p : nat) : Prop :=
  start <= p /\ p + 64 <= lim /\ occurs l mask pat p /\
  forall q, start <= q < p -> ~ occurs l mask pat q.
Definition no_occ (l : list bool) (mask pat : N) (start lim : nat) : Prop :=
  forall q, start <= q -> q + 64 <= lim -> ~ occurs l mask pat q.

(* Abstract circular bit array with a read position (the meaning of BitRing). *)
Record aring : Set := mkAring { a_bits : list bool; a_pos : nat; a_over : option bool }.
Inductive ring_op : Set := OpSet (i : nat) (b : bool) | OpGet (i : nat) | OpNext | OpRead (n : nat).
Inductive ring_out : Set := OutUnit | OutBit (b : bool) | OutBytes (l : list N).
Definition aring_step (a : aring) (o : ring_op) : aring * ring_out :=
  let w := length (a_bits a) in
  match o with
  | OpSet i b => (mkAring (upd (a_bits a) (i mod w) b) (a_pos a) (a_over a), OutUnit)
  | OpGet i => (a, OutBit (match a_over a with
                           | Some v => if i <? w then circ (a_bits a) i else v
                           | None => circ (a_bits a) i end))
  | OpNext => (mkAring (a_bits a) ((a_pos a + 1) mod w) (a_over a), OutBit (circ (a_bits a) (a_pos a)))
  | OpRead n => (mkAring (a_bits a) ((a_pos a + 8 * n) mod w) (a_over a),
                 OutBytes (bytes_of n (window (a_bits a) (a_pos a) (8 * n))))
  end.
Fixpoint aring_run (a : aring) (ops : list ring_op) : aring * list ring_out :=
  match ops with
  | [] => (a, [])
  | o :: t => let '(a1, x) := aring_step a o in let '(a2, xs) := aring_run a1 t in (a2, x :: xs)
  end.
