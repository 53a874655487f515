(* Lzw_spec.v - what a TeleDisk 1.x compressed file means. *)
From Verif Require Import Base.
Import ListNotations.
Open Scope nat_scope.

(* n bits of a number, least significant first *)
Definition lsb (n : nat) (v : N) : list bool := map (fun k => N.testbit v (N.of_nat k)) (seq 0 n).
Definition lsb_body (file : list N) : list bool := flat_map (lsb 8) (skipn 12 file).
(* The bits fall into chunks: a 16-bit count of 4-bit units, then as many 12-bit codes as it takes to fill them.  The last chunk
   may be cut off. *)
Definition codes_in (h : N) : N := ((4 * h + 11) / 12)%N.
Inductive chunked : list bool -> list (list N) -> Prop :=
| chunked_end bits : length bits < 16 -> chunked bits []
| chunked_cut h codes bits : (h < 65536)%N -> Forall (fun c => (c < 4096)%N) codes -> (N.of_nat (length codes) < codes_in h)%N -> length bits < 12 ->
    chunked (lsb 16 h ++ flat_map (lsb 12) codes ++ bits) [codes]
| chunked_next h codes bits chunks : (h < 65536)%N -> Forall (fun c => (c < 4096)%N) codes -> N.of_nat (length codes) = codes_in h -> chunked bits chunks ->
    chunked (lsb 16 h ++ flat_map (lsb 12) codes ++ bits) (codes :: chunks).
(* What a code stands for, given the strings of the codes before it in its chunk: below 256 a single byte; 256 + k stands for the
   string of code number k followed by the first byte of the string after it (which may be this one). *)
Definition phrase (ps : list (list N)) (c : N) : option (list N) :=
  if (c <? 256)%N then Some [c] else
  match nth_error ps (N.to_nat (c - 256)) with
  | None => None
  | Some s => Some (s ++ [hd 0%N (nth (S (N.to_nat (c - 256))) ps s)])
  end.
Fixpoint phrases (ps : list (list N)) (codes : list N) : option (list (list N)) :=
  match codes with
  | [] => Some ps
  | c :: codes => match phrase ps c with None => None | Some s => phrases (ps ++ [s]) codes end
  end.
(* The output is that of the chunks one after the other.  A chunk with a code standing for nothing is an error. *)
Fixpoint expansion (chunks : list (list N)) : option (list N) :=
  match chunks with
  | [] => Some []
  | codes :: chunks =>
      match phrases [] codes, expansion chunks with
      | Some ps, Some out => Some (concat ps ++ out)
      | _, _ => None
      end
  end.
(* chunks starting with a byte *)
Definition starts_with_byte (codes : list N) : bool := match codes with [] => true | c :: _ => (c <? 256)%N end.
