(* Lzw_model.v - src/file_parsers/compression/lzw/mod.rs: expand with the options OptionsPreset::Teledisk (107-121), the only ones
   fluxfox uses: 16-bit chunk headers counting units of 4 bits, 12-bit codes, least significant bit first, offsets 12, no clear
   or stop code, at most 3000000 bytes.  Not modelled: compress (only called from tests). *)
From Verif Require Import Base Huff_model.
Import ListNotations.
Open Scope nat_scope.

(* 148-158 bytes_to_bits_lsb0 of one byte *)
Definition lsb_bits (b : N) : list bool := map (fun k => N.testbit b (N.of_nat k)) (seq 0 8).
(* 252-275 get_bit; None stands for UnexpectedEof *)
Definition lzw_get_bit (s : bitsrc) : option (bool * bitsrc) :=
  match nth_error (b_bits s) (b_ptr s) with
  | Some b => Some (b, mkBS (b_bits s) (S (b_ptr s)) (b_rest s))
  | None =>
      match b_rest s with
      | [] => None
      | by_ :: rest =>
          let '(bits, ptr) := if 512 <? length (b_bits s) then (skipn (b_ptr s) (b_bits s), 0) else (b_bits s, b_ptr s) in
          let bits := bits ++ lsb_bits by_ in
          match nth_error bits ptr with
          | Some b => Some (b, mkBS bits (S ptr) rest)
          | None => None
          end
      end
  end.
(* 285-289: bit i is or-ed in at position i *)
Fixpoint get_code_loop (num : nat) (i : N) (ans : N) (s : bitsrc) : option (N * bitsrc) :=
  match num with
  | O => Some (ans, s)
  | S num => match lzw_get_bit s with
             | None => None
             | Some (b, s) => get_code_loop num (i + 1) (N.lor ans (N.shiftl (b2N b) i)) s
             end
  end.
(* 276-293 get_code *)
Definition get_code (num : nat) (s : bitsrc) : option (N * bitsrc) := get_code_loop num 0 0 s.

(* 320-329 LZW.  The dictionary maps a code to its base code and last symbol; inserting replaces. *)
Definition dict := list (N * (N * N)).
Fixpoint dict_get (d : dict) (code : N) : option (N * N) :=
  match d with [] => None | (k, v) :: d => if (k =? code)%N then Some v else dict_get d code end.
(* 335-352 create *)
Definition dict_new : dict := map (fun i => (N.of_nat i, (N.of_nat i, N.of_nat i))) (seq 0 256).
(* 355-366 get_string: (last symbol first); the caller reverses.  The base of a code is a smaller code. *)
Fixpoint get_rev (fuel : nat) (d : dict) (code : N) : outcome (list N) :=
  match fuel with
  | O => Panic
  | S fuel =>
      match dict_get d code with
      | None => Panic
      | Some (base, sym) =>
          if (sym =? base)%N && (code <=? 255)%N then Ok [as_u8 sym]
          else let! l := get_rev fuel d base in Ok (as_u8 sym :: l)
      end
  end.
Definition get_string (d : dict) (code : N) : outcome (list N) :=
  let! l := get_rev (S (N.to_nat code)) d code in Ok (rev l).
(* 370-401 advance_code: the code and the new curr_code *)
Definition advance_code (curr : option N) : option N * option N :=
  let new := match curr with None => 0 | Some c => c + 1 end%N in
  let new := if (new <=? 255)%N then 256%N else new in
  if (4095 <? new)%N then (None, Some 4095%N) else (Some new, Some new).

Record lzw := mkLZ { lz_dict : dict; lz_curr : option N; lz_prev : option N; lz_str : list N; lz_out : list N }.
(* 617-646: one code *)
Definition lzw_step (s : lzw) (code : N) : outcome lzw :=
  let '(next, curr) := match lz_prev s with None => (None, lz_curr s) | Some _ => advance_code (lz_curr s) end in
  let! str :=
    match dict_get (lz_dict s) code with
    | None =>
        let! h := oindex (lz_str s) 0 in
        match next with
        | None => Err ImageCorruptError
        | Some nc => if (code =? nc)%N then Ok (lz_str s ++ [h]) else Err ImageCorruptError
        end
    | Some _ => get_string (lz_dict s) code
    end in
  let! d :=
    match next, lz_prev s with
    | Some nc, Some p => let! h := oindex str 0 in Ok ((nc, (p, h)) :: lz_dict s)
    | _, _ => Ok (lz_dict s)
    end in
  Ok (mkLZ d curr (Some code) str (lz_out s ++ str)).
(* 596-647: the codes of a chunk; the flag is end_of_data *)
Fixpoint lzw_codes (fuel : nat) (bit_count chunk_bits : N) (s : lzw) (src : bitsrc) : outcome (lzw * bitsrc * bool) :=
  if (bit_count <? chunk_bits)%N then
    match fuel with
    | O => Panic
    | S fuel =>
        match get_code 12 src with
        | None => Ok (s, src, true)
        | Some (code, src) => let! s := lzw_step s code in lzw_codes fuel (bit_count + 12) chunk_bits s src
        end
    end
  else Ok (s, src, false).
(* 573-652: the chunks *)
Fixpoint lzw_chunks (fuel : nat) (out : list N) (src : bitsrc) : outcome (list N) :=
  match fuel with
  | O => Panic
  | S fuel =>
      match get_code 16 src with
      | None => Ok out
      | Some (h, src) =>
          let! (s, src, eod) := lzw_codes (S (length (b_bits src) + 8 * length (b_rest src))) 0 (4 * h) (mkLZ dict_new None None [] out) src in
          if eod : bool then Ok (lz_out s) else lzw_chunks fuel (lz_out s) src
      end
  end.
(* 552-656 expand.  The errors are CompressionErrors; the only caller turns each into ImageCorruptError.  The writer starts empty
   at offset 12 (see lzhuf_expand). *)
Definition lzw_expand (file : list N) : outcome (list N * N) :=
  let size := N.of_nat (length file) in
  if (size <? 12)%N then Err ImageCorruptError else
  if (3000000 <? size - 12)%N then Err ImageCorruptError else
  let! out := lzw_chunks (S (8 * length (skipn 12 file))) [] (mkBS [] 0 (skipn 12 file)) in
  Ok (match out with [] => [] | _ => repeat 0%N 12 ++ out end, N.of_nat (length out)).
