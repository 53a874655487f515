(* Lzhuf_spec.v - what LZSS with adaptive Huffman coding means, without reference to how the expander works. *)
From Coq Require Import Permutation Sorted.
From Verif Require Import Base.
Import ListNotations.

(* ---- symbol counts ---- *)
(* Every symbol starts with count one.  Coding a symbol adds one to its count; when the counts add up to 0x8000 they are first
   halved, rounding up. *)
Definition sum_counts (c : list N) : N := fold_right N.add 0%N c.
Definition count_symbol (c : list N) (y : nat) : list N :=
  let c := if (sum_counts c =? 0x8000)%N then map (fun x => (x + 1) / 2)%N c else c in
  upd c y (nth y c 0 + 1)%N.

(* ---- binary code trees ---- *)
Inductive ctree := Leaf (y : nat) | Node (l r : ctree).
(* the codewords of a tree: 0 for left, 1 for right *)
Inductive codeword : ctree -> nat -> list bool -> Prop :=
| cw_leaf y : codeword (Leaf y) y []
| cw_left l r y w : codeword l y w -> codeword (Node l r) y (false :: w)
| cw_right l r y w : codeword r y w -> codeword (Node l r) y (true :: w).
Fixpoint leaves (t : ctree) : list nat := match t with Leaf y => [y] | Node l r => leaves l ++ leaves r end.
Fixpoint tree_weight (c : list N) (t : ctree) : N :=
  match t with Leaf y => nth y c 0%N | Node l r => (tree_weight c l + tree_weight c r)%N end.
(* all subtrees except the tree itself, as pairs of siblings *)
Fixpoint siblings (t : ctree) : list (ctree * ctree) :=
  match t with Leaf _ => [] | Node l r => (l, r) :: siblings l ++ siblings r end.
(* A Huffman tree for the counts: its leaves are the symbols 0 .. n-1, each once, and the pairs of siblings can be listed so that
   the weights of all nodes, in this order, do not decrease (Gallager's sibling property). *)
Definition huffman_tree (n : nat) (c : list N) (t : ctree) : Prop :=
  Permutation (leaves t) (seq 0 n) /\
  exists order, Permutation order (siblings t) /\
    Sorted N.le (flat_map (fun lr => [tree_weight c (fst lr); tree_weight c (snd lr)]) order).

(* ---- tokens ---- *)
(* a literal byte, or a copy of `len` bytes from `dist + 1` bytes back *)
Inductive token := Lit (b : N) | Copy (dist len : N).
Definition token_ok (t : token) : Prop :=
  match t with Lit b => (b < 256)%N | Copy dist len => (dist < 4096 /\ 3 <= len <= 60)%N end.
(* the symbol coding a token: the byte itself, or 256 + (len - 3) *)
Definition token_symbol (t : token) : nat :=
  match t with Lit b => N.to_nat b | Copy _ len => N.to_nat (len + 253) end.
(* Before the output there are, as far back as a copy can reach, 60 zero bytes and 4036 spaces. *)
Definition history (out : list N) : list N := repeat 0%N 60 ++ repeat 32%N 4036 ++ out.
Fixpoint copy_bytes (len : nat) (back : nat) (out : list N) : list N :=
  match len with
  | O => out
  | S len => copy_bytes len back (out ++ [nth (length (history out) - back) (history out) 0%N])
  end.
Definition lz_step (out : list N) (t : token) : list N :=
  match t with Lit b => out ++ [b] | Copy dist len => copy_bytes (N.to_nat len) (N.to_nat dist + 1) out end.
Definition lz (ts : list token) : list N := fold_left lz_step ts [].

(* ---- the code for copy distances ---- *)
(* The upper six bits of the distance have a canonical prefix code with these lengths; the lower six bits follow as they are. *)
Definition dist_lengths : list nat :=
  [3; 4;4;4; 5;5;5;5;5;5;5;5; 6;6;6;6;6;6;6;6;6;6;6;6; 7;7;7;7;7;7;7;7;7;7;7;7;7;7;7;7;7;7;7;7;7;7;7;7; 8;8;8;8;8;8;8;8;8;8;8;8;8;8;8;8].
(* the first 8-bit value a codeword covers: the values covered by the codewords before it, counted *)
Definition dist_start (i : nat) : N := fold_right (fun l a => (2 ^ (8 - N.of_nat l) + a)%N) 0%N (firstn i dist_lengths).
Definition dist_code (dist : N) : list bool :=
  let i := N.to_nat (dist / 64) in
  firstn (nth i dist_lengths 0) (byte_bits (dist_start i)) ++ skipn 2 (byte_bits (dist mod 64)).
Definition token_tail (t : token) : list bool := match t with Lit _ => [] | Copy dist _ => dist_code dist end.

(* ---- compressed data ---- *)
(* the counts after some symbols *)
Definition counts (n : nat) (past : list nat) : list N := fold_left count_symbol past (repeat 1%N n).
(* `tree` gives the code tree in force after some symbols.  The bits of a token are the codeword of its symbol followed by the
   code of its distance. *)
Inductive coded (tree : list nat -> ctree) : list nat -> list token -> list bool -> Prop :=
| coded_nil past : coded tree past [] []
| coded_cons past t ts w bits :
    token_ok t -> codeword (tree past) (token_symbol t) w -> coded tree (past ++ [token_symbol t]) ts bits ->
    coded tree past (t :: ts) (w ++ token_tail t ++ bits).
(* no complete token stands at the front of the bits *)
Definition no_token (tree : list nat -> ctree) (past : list nat) (bits : list bool) : Prop :=
  forall t w r, token_ok t -> codeword (tree past) (token_symbol t) w -> bits <> w ++ token_tail t ++ r.
(* the bits of a TeleDisk file's compressed part: after a header of 12 bytes, most significant bit first *)
Definition body_bits (file : list N) : list bool := flat_map byte_bits (skipn 12 file).
(* Output stops once 2^32 - 1 is reached, the header's 12 bytes included: every token was decoded below this limit. *)
Definition limit : N := 0xffffffff.
Definition within (ts : list token) : Prop := forall a t b, ts = a ++ t :: b -> (12 + N.of_nat (length (lz a)) < limit)%N.
