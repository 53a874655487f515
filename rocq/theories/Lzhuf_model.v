(* Lzhuf_model.v - src/file_parsers/compression/lzhuf/{lzhuf.rs (expand), ring_buffer.rs, mod.rs}.
   The options are TD0_READ_OPTIONS (mod.rs 60-68), the only ones fluxfox uses: no header, offsets 12, window 4096, threshold 2,
   lookahead 60, precursor ' '.  Not modelled: compress with its match finder (dead code), the node pool (expand only creates it). *)
From Coq Require Import ZArith.
From Verif Require Import Base Huff_model.
Import ListNotations.
Open Scope nat_scope.

(* ring_buffer.rs 3-7; `n` is the length of the buffer *)
Record ring := mkRB { rb_buf : list N; rb_pos : nat }.
(* 10-16 create *)
Definition rb_create (n : nat) : ring := mkRB (repeat 0%N n) 0.
(* 33, 36: the index of an offset *)
Definition rb_index (r : ring) (offset : Z) : nat := Z.to_nat ((Z.of_nat (rb_pos r) + offset) mod Z.of_nat (length (rb_buf r)))%Z.
(* 32-34 get *)
Definition rb_get (r : ring) (offset : Z) : outcome N := oindex (rb_buf r) (rb_index r offset).
(* 35-37 set *)
Definition rb_set (r : ring) (offset : Z) (v : N) : outcome ring :=
  let! b := oset (rb_buf r) (rb_index r offset) v in Ok (mkRB b (rb_pos r)).
(* 20-22 set_pos *)
Definition rb_set_pos (r : ring) (pos : nat) : ring := mkRB (rb_buf r) (pos mod length (rb_buf r)).
(* 38-40 advance *)
Definition rb_advance (r : ring) : ring := mkRB (rb_buf r) ((rb_pos r + 1) mod length (rb_buf r)).

(* lzhuf.rs 334-339: the dictionary at the start *)
Definition dict_start : outcome ring :=
  let! r := ofold (fun r i => rb_set r (Z.of_nat i) 32%N) (seq 0 (4096 - 60)) (rb_create 4096) in
  Ok (rb_set_pos r (4096 - 60)).
(* 348-350 and 361-363: one byte to the output and into the dictionary *)
Definition emit (s : ring * list N) (b : N) : outcome (ring * list N) :=
  let (r, out) := s in
  let! r := rb_set r 0 b in
  Ok (rb_advance r, out ++ [b]).
(* 359-364 *)
Fixpoint copy_loop (k : nat) (offset : Z) (s : ring * list N) : outcome (ring * list N) :=
  match k with
  | O => Ok s
  | S k => let! b := rb_get (fst s) offset in let! s := emit s b in copy_loop k offset s
  end.
(* 341-366.  The output starts at offset 12; max_expanded_size is u32::MAX.  Symbols are below 2^15, so the casts to i64 and i16
   change nothing. *)
Fixpoint expand_loop (fuel : nat) (d : decoder) (s : ring * list N) : outcome (list N) :=
  if (12 + N.of_nat (length (snd s)) <? 0xffffffff)%N then
    match fuel with
    | O => Panic
    | S fuel =>
        let! r := decode_char d in
        match r with
        | None => Ok (snd s)
        | Some (c, d) =>
            if c <? 256 then let! s := emit s (as_u8 (N.of_nat c)) in expand_loop fuel d s
            else
              let! q := decode_position (de_src d) in
              match q with
              | None => Ok (snd s)
              | Some (pos, src) =>
                  let offset := (- (Z.of_N pos + 1))%Z in
                  let! s := copy_loop (c + 2 - 255) offset s in
                  expand_loop fuel (mkDe (de_tree d) src) s
              end
        end
    end
  else Ok (snd s).
(* 313-369 expand: the contents of the writer (a cursor over an empty vector, sought to offset 12: the gap is filled with zeros
   by the first write) and the number of bytes written.  Subtracting the offset from the length underflows for files below 12
   bytes.  The fuel is one more than the number of bits: every symbol takes one bit at least. *)
Definition lzhuf_expand (file : list N) : outcome (list N * N) :=
  if length file <? 12 then Panic else
  let! t := ht_create (256 + 60 - 2) in
  let! r := dict_start in
  let body := skipn 12 file in
  let! out := expand_loop (S (8 * length body)) (mkDe t (mkBS [] 0 body)) (r, []) in
  Ok (match out with [] => [] | _ => repeat 0%N 12 ++ out end, N.of_nat (length out)).

(* ---- the writing half of compress ---- *)
(* lzhuf.rs 269-276: a literal, or a match of `len` bytes at `dist`.  The match finder choosing the tokens is not modelled. *)
Definition encode_match (s : coder) (dist len : N) : outcome coder :=
  let! s := encode_char s (N.to_nat (255 - 2 + len)) in encode_position s dist.
Definition encode_literal (s : coder) (b : N) : outcome coder := encode_char s (N.to_nat b).
(* adaptive_huff.rs 255-261 create, on an empty writer *)
Definition coder_new : outcome coder := let! t := ht_create (256 + 60 - 2) in Ok (mkCo t [] (mkW [] 0)).
