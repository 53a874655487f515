(* Huff_model.v - src/file_parsers/compression/lzhuf/adaptive_huff.rs: the adaptive Huffman tree, its coder and decoder.
   A reader is the list of the bytes not yet read.  Loops run with enough fuel: running out of it counts as a panic, so a theorem
   that excludes Panic also shows that the loop ends.  usize arithmetic that cannot reach 2^64 is not checked. *)
From Verif Require Import Base.
Import ListNotations.

(* l[i] = x : panics out of range *)
Definition oset {A} (l : list A) (i : nat) (x : A) : outcome (list A) := if i <? length l then Ok (upd l i x) else Panic.

(* adaptive_huff.rs 11-24 AdaptiveHuffmanTree.  max_freq is the constant 0x8000; node_count and root are functions of num_symb. *)
Record htree := mkHT { h_nsym : nat; h_freq : list N; h_parent : list nat; h_son : list nat; h_map : list nat }.
Definition h_max : N := 0x8000.
Definition h_count (t : htree) : nat := 2 * h_nsym t - 1.
Definition h_root (t : htree) : nat := 2 * h_nsym t - 2.

(* 111-115: the leaves *)
Definition create_leaf (s : list N * list nat * list nat) (nc i : nat) : outcome (list N * list nat * list nat) :=
  let '(freq, son, map) := s in
  let! freq := oset freq i 1%N in
  let! son := oset son i (i + nc) in
  let! map := oset map i i in
  Ok (freq, son, map).
(* 122-131: the inner nodes *)
Fixpoint create_link (fuel : nat) (i j root : nat) (freq : list N) (son parent : list nat) : outcome (list N * list nat * list nat) :=
  if j <=? root then
    match fuel with
    | O => Panic
    | S fuel =>
        let! a := oindex freq i in
        let! b := oindex freq (i + 1) in
        let! freq := oset freq j (a + b)%N in
        let! son := oset son j i in
        let! parent := oset parent i j in
        let! parent := oset parent (i + 1) j in
        create_link fuel (i + 2) (j + 1) root freq son parent
    end
  else Ok (freq, son, parent).
(* 98-137 create; `2 * num_symbols - 2` underflows for no symbols *)
Definition ht_create (n : nat) : outcome htree :=
  if n =? 0 then Panic else
  let nc := 2 * n - 1 in
  let root := 2 * n - 2 in
  let! (freq, son, map) := ofold (fun s i => create_leaf s nc i) (seq 0 n) (repeat 0%N (2 * n), repeat 0 nc, repeat 0 n) in
  let! (freq, son, parent) := create_link n 0 n root freq son (repeat 0 nc) in
  let! freq := oset freq nc 0xffff%N in
  let! parent := oset parent root 0 in
  Ok (mkHT n freq parent son map).

(* 142-149: the leaves are collected at the front, their frequencies halved.  The state is (freq, son, j) *)
Definition collect_leaf (nc : nat) (s : list N * list nat * nat) (i : nat) : outcome (list N * list nat * nat) :=
  let '(freq, son, j) := s in
  let! x := oindex son i in
  if nc <=? x then
    let! f := oindex freq i in
    let! freq := oset freq j ((f + 1) / 2)%N in
    let! son := oset son j x in
    Ok (freq, son, S j)
  else Ok (freq, son, j).
(* 163-166: while f < freq[k] { k -= 1 } *)
Fixpoint back_search (f : N) (freq : list N) (k : nat) : outcome nat :=
  let! x := oindex freq k in
  if (f <? x)%N then match k with O => Panic | S k' => back_search f freq k' end else Ok k.
(* 170-172 and 174-176: for kp in (k..k + l).rev() { v[kp + 1] = v[kp] } *)
Definition shift_up {A} (v : list A) (k l : nat) : outcome (list A) :=
  ofold (fun v kp => let! x := oindex v kp in oset v (kp + 1) x) (rev (seq k l)) v.
(* 152-180: the inner nodes are built *)
Fixpoint build_nodes (fuel nc i j : nat) (freq : list N) (son : list nat) : outcome (list N * list nat) :=
  if j <? nc then
    match fuel with
    | O => Panic
    | S fuel =>
        let! a := oindex freq i in
        let! b := oindex freq (i + 1) in
        let f := (a + b)%N in
        let! freq := oset freq j f in
        let! k := (match j with O => Panic | S j' => back_search f freq j' end) in
        let k := k + 1 in
        let l := (j - k) * 2 in
        let! freq := shift_up freq k l in
        let! freq := oset freq k f in
        let! son := shift_up son k l in
        let! son := oset son k i in
        build_nodes fuel nc (i + 2) (j + 1) freq son
    end
  else Ok (freq, son).
(* 183-194: the parents and the symbol table.  The state is (parent, map) *)
Definition connect (nc : nat) (son : list nat) (s : list nat * list nat) (i : nat) : outcome (list nat * list nat) :=
  let '(parent, map) := s in
  let! k := oindex son i in
  if nc <=? k then let! map := oset map (k - nc) i in Ok (parent, map)
  else let! parent := oset parent k i in let! parent := oset parent (k + 1) i in Ok (parent, map).
(* 138-195 rebuild_huff *)
Definition rebuild_huff (t : htree) : outcome htree :=
  let nc := h_count t in
  let! (freq, son, _) := ofold (collect_leaf nc) (seq 0 nc) (h_freq t, h_son t, 0) in
  let! (freq, son) := build_nodes nc nc 0 (h_nsym t) freq son in
  let! (parent, map) := ofold (connect nc son) (seq 0 nc) (h_parent t, h_map t) in
  Ok (mkHT (h_nsym t) freq parent son map).

(* 214-216: while k > freq[l] { l += 1 } *)
Fixpoint fwd_search (fuel : nat) (k : N) (freq : list N) (l : nat) : outcome nat :=
  let! x := oindex freq l in
  if (x <? k)%N then match fuel with O => Panic | S fuel => fwd_search fuel k freq (S l) end else Ok l.
(* 222-229 and 234-240: the node now at `at` has the sons `x` *)
Definition relink (nc : nat) (pm : list nat * list nat) (x at_ : nat) : outcome (list nat * list nat) :=
  let '(parent, map) := pm in
  if x <? nc then let! parent := oset parent x at_ in let! parent := oset parent (x + 1) at_ in Ok (parent, map)
  else let! map := oset map (x - nc) at_ in Ok (parent, map).
(* 207-244: one round of the sorting loop, up to `c = l` *)
Definition update_node (t : htree) (c : nat) : outcome (htree * nat) :=
  let nc := h_count t in
  let! f := oindex (h_freq t) c in
  let k := (f + 1)%N in
  let! freq := oset (h_freq t) c k in
  let! x := oindex freq (c + 1) in
  if (x <? k)%N then
    let! l := fwd_search (length freq) k freq (c + 1) in
    let l := l - 1 in
    let! fl := oindex freq l in
    let! freq := oset freq c fl in
    let! freq := oset freq l k in
    let! i := oindex (h_son t) c in
    let! pm := relink nc (h_parent t, h_map t) i l in
    let! j := oindex (h_son t) l in
    let! son := oset (h_son t) l i in
    let! (parent, map) := relink nc pm j c in
    let! son := oset son c j in
    Ok (mkHT (h_nsym t) freq parent son map, l)
  else Ok (mkHT (h_nsym t) freq (h_parent t) (h_son t) (h_map t), c).
(* 207-249 *)
Fixpoint update_loop (fuel : nat) (t : htree) (c : nat) : outcome htree :=
  match fuel with
  | O => Panic
  | S fuel =>
      let! (t, c) := update_node t c in
      let! p := oindex (h_parent t) c in
      if p =? 0 then Ok t else update_loop fuel t p
  end.
(* 196-250 update.  c0 is a symbol (an i16 in the code; symbols are far below 2^15) *)
Definition ht_update (t : htree) (c0 : nat) : outcome htree :=
  let! f := oindex (h_freq t) (h_root t) in
  let! t := if (f =? h_max)%N then rebuild_huff t else Ok t in
  let! c := oindex (h_map t) c0 in
  update_loop (h_count t) t c.

(* ---- the coder, 253-317 ---- *)
(* A seekable writer: the bytes written and the position.  Writing overwrites from the position on (std::io::Cursor<Vec<u8>>;
   the position never lies beyond the end here). *)
Record writer := mkW { w_buf : list N; w_pos : nat }.
Definition w_write (w : writer) (bytes : list N) : writer :=
  mkW (firstn (w_pos w) (w_buf w) ++ bytes ++ skipn (w_pos w + length bytes) (w_buf w)) (w_pos w + length bytes).
(* bit_vec's to_bytes: most significant bit first, the last byte filled with zeros *)
Fixpoint bv_to_bytes (fuel : nat) (l : list bool) : list N :=
  match fuel, l with
  | S fuel, _ :: _ => bits_val (firstn 8 (l ++ repeat false 7)) :: bv_to_bytes fuel (skipn 8 l)
  | _, _ => []
  end.
(* 274-278: the `num` upper bits of the u16 `code`, most significant first; zeros once it is used up *)
Fixpoint code_bits (num : nat) (code : N) : list bool :=
  match num with O => [] | S num => N.testbit code 15 :: code_bits num (as_u16 (code * 2)) end.
(* 26-30, 271-290 put_code; 262-270 drop_leading_bits keeps the bits of the incomplete byte.  Seeking back before the start of
   the writer cannot happen: a byte was just written. *)
Definition put_code (num : nat) (code : N) (bits : list bool) (w : writer) : list bool * writer :=
  let bits := bits ++ code_bits num code in
  let w := w_write w (bv_to_bytes (length bits) bits) in
  if length bits mod 8 =? 0 then ([], w)
  else (skipn (8 * (length bits / 8)) bits, mkW (w_buf w) (w_pos w - 1)).
(* 295-305: from a leaf to the root; (num_bits, code) *)
Fixpoint encode_walk (fuel : nat) (t : htree) (node num : nat) (code : N) : outcome (nat * N) :=
  match fuel with
  | O => Panic
  | S fuel =>
      let code := (code / 2 + N.of_nat (node mod 2) * 0x8000)%N in
      let! p := oindex (h_parent t) node in
      if p =? h_root t then Ok (S num, code) else encode_walk fuel t p (S num) code
  end.
Record coder := mkCo { co_tree : htree; co_bits : list bool; co_out : writer }.
(* 291-309 encode_char *)
Definition encode_char (s : coder) (c : nat) : outcome coder :=
  let! node := oindex (h_map (co_tree s)) c in
  let! (num, code) := encode_walk (h_count (co_tree s)) (co_tree s) node 0 0 in
  let (bits, w) := put_code num code (co_bits s) (co_out s) in
  let! t := ht_update (co_tree s) c in
  Ok (mkCo t bits w).
(* 41-46 P_LEN *)
Definition p_len : list N :=
  [3%N] ++ repeat 4%N 3 ++ repeat 5%N 8 ++ repeat 6%N 12 ++ repeat 7%N 24 ++ repeat 8%N 16.
(* 51-56 P_CODE *)
Definition p_code : list N :=
  [0x00; 0x20; 0x30; 0x40; 0x50; 0x58; 0x60; 0x68; 0x70; 0x78; 0x80; 0x88; 0x90; 0x94; 0x98; 0x9C; 0xA0; 0xA4; 0xA8;
   0xAC; 0xB0; 0xB4; 0xB8; 0xBC; 0xC0; 0xC2; 0xC4; 0xC6; 0xC8; 0xCA; 0xCC; 0xCE; 0xD0; 0xD2; 0xD4; 0xD6; 0xD8; 0xDA;
   0xDC; 0xDE; 0xE0; 0xE2; 0xE4; 0xE6; 0xE8; 0xEA; 0xEC; 0xEE; 0xF0; 0xF1; 0xF2; 0xF3; 0xF4; 0xF5; 0xF6; 0xF7; 0xF8;
   0xF9; 0xFA; 0xFB; 0xFC; 0xFD; 0xFE; 0xFF]%N.
(* 310-316 encode_position *)
Definition encode_position (s : coder) (c : N) : outcome coder :=
  let i := N.to_nat (c / 64) in
  let! n := oindex p_len i in
  let! k := oindex p_code i in
  let (bits, w) := put_code (N.to_nat n) (k * 256) (co_bits s) (co_out s) in
  let (bits, w) := put_code 6 (as_u16 (N.land c 0x3f * 1024)) bits w in
  Ok (mkCo (co_tree s) bits w).

(* ---- the decoder, 319-395 ---- *)
Record bitsrc := mkBS { b_bits : list bool; b_ptr : nat; b_rest : list N }.
Record decoder := mkDe { de_tree : htree; de_src : bitsrc }.
(* 336-359 get_bit (and 327-335 drop_leading_bits): None stands for the error UnexpectedEof, the only one a reader over memory
   gives.  The recursion is one level deep: after a byte was appended the bit exists. *)
Definition get_bit (s : bitsrc) : option (bool * bitsrc) :=
  match nth_error (b_bits s) (b_ptr s) with
  | Some b => Some (b, mkBS (b_bits s) (S (b_ptr s)) (b_rest s))
  | None =>
      match b_rest s with
      | [] => None
      | by_ :: rest =>
          let '(bits, ptr) := if 512 <? length (b_bits s) then (skipn (b_ptr s) (b_bits s), 0) else (b_bits s, b_ptr s) in
          let bits := bits ++ byte_bits by_ in
          match nth_error bits ptr with
          | Some b => Some (b, mkBS bits (S ptr) rest)
          | None => None
          end
      end
  end.
(* n further bits shifted into `ans`; 360-368 get_byte is get_bits 8 0; 389-392 is the loop for the lower bits *)
Fixpoint get_bits (n : nat) (ans : N) (s : bitsrc) : option (N * bitsrc) :=
  match n with
  | O => Some (ans, s)
  | S n => match get_bit s with
           | None => None
           | Some (b, s) => get_bits n (ans * 2 + b2N b)%N s
           end
  end.
(* 370-377: from the root to a leaf.  Ok None: end of the data *)
Fixpoint decode_walk (fuel : nat) (t : htree) (c : nat) (s : bitsrc) : outcome (option (nat * bitsrc)) :=
  if c <? h_count t then
    match fuel with
    | O => Panic
    | S fuel =>
        match get_bit s with
        | None => Ok None
        | Some (b, s) => let! c := oindex (h_son t) (c + (if b then 1 else 0)) in decode_walk fuel t c s
        end
    end
  else Ok (Some (c - h_count t, s)).
(* 369-381 decode_char *)
Definition decode_char (d : decoder) : outcome (option (nat * decoder)) :=
  let t := de_tree d in
  let! c := oindex (h_son t) (h_root t) in
  let! r := decode_walk (h_count t) t c (de_src d) in
  match r with
  | None => Ok None
  | Some (c, s) => let! t := ht_update t c in Ok (Some (c, mkDe t s))
  end.
(* 61-76 D_LEN, 80-95 D_CODE: every value of P_CODE up to the next one, so a code of `len` bits fills 2^(8 - len) entries *)
Definition d_len : list N :=
  repeat 3%N 32 ++ repeat 4%N 48 ++ repeat 5%N 64 ++ repeat 6%N 48 ++ repeat 7%N 48 ++ repeat 8%N 16.
Definition d_code : list N :=
  repeat 0%N 32 ++ repeat 1%N 16 ++ repeat 2%N 16 ++ repeat 3%N 16 ++
  flat_map (fun c => repeat c 8) [4; 5; 6; 7; 8; 9; 0xA; 0xB]%N ++
  flat_map (fun c => repeat c 4) [0xC; 0xD; 0xE; 0xF; 0x10; 0x11; 0x12; 0x13; 0x14; 0x15; 0x16; 0x17]%N ++
  flat_map (fun c => repeat c 2) [0x18; 0x19; 0x1A; 0x1B; 0x1C; 0x1D; 0x1E; 0x1F; 0x20; 0x21; 0x22; 0x23; 0x24; 0x25; 0x26; 0x27;
                                  0x28; 0x29; 0x2A; 0x2B; 0x2C; 0x2D; 0x2E; 0x2F]%N ++
  [0x30; 0x31; 0x32; 0x33; 0x34; 0x35; 0x36; 0x37; 0x38; 0x39; 0x3A; 0x3B; 0x3C; 0x3D; 0x3E; 0x3F]%N.
(* 382-394 decode_position *)
Definition decode_position (s : bitsrc) : outcome (option (N * bitsrc)) :=
  match get_bits 8 0 s with
  | None => Ok None
  | Some (first8, s) =>
      let! upper := oindex d_code (N.to_nat first8) in
      let! coded := oindex d_len (N.to_nat first8) in
      if (coded <? 2)%N then Panic else
      match get_bits (N.to_nat (coded - 2)) first8 s with
      | None => Ok None
      | Some (v, s) => Ok (Some (N.lor (upper * 64) (N.land (as_u16 v) 0x3f), s))
      end
  end.
