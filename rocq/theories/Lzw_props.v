(* Lzw_props.v - C60: TeleDisk 1.x LZW compression. *)
From Verif Require Import Base Base_lemmas BitRing_proofs Huff_model Lzw_model Lzw_spec Lzw_proofs.
Import ListNotations.
Open Scope nat_scope.

Definition lzw_expanded (out : list N) : list N * N :=
  (match out with [] => [] | _ => repeat 0%N 12 ++ out end, N.of_nat (length out)).
(* the bits of any file fall into chunks of codes *)
Theorem C60_chunked file : exists chunks, chunked (lsb_body file) chunks.
Proof. apply chunked_exists. Qed.
(* if every code stands for a string, the file expands to these strings *)
Theorem C60_expands file chunks out : (12 <= N.of_nat (length file) <= 3000012)%N -> chunked (lsb_body file) chunks -> expansion chunks = Some out ->
  lzw_expand file = Ok (lzw_expanded out).
Proof. intros L C E. rewrite (lzw_expand_ok file chunks L C), (result_some [] chunks out E). reflexivity. Qed.
(* if some code stands for nothing, and every chunk starts with a byte, the file is rejected *)
Theorem C60_rejects file chunks : (12 <= N.of_nat (length file) <= 3000012)%N -> chunked (lsb_body file) chunks -> expansion chunks = None ->
  Forall (fun codes => starts_with_byte codes = true) chunks -> lzw_expand file = Err ImageCorruptError.
Proof.
  intros L C E F. rewrite (lzw_expand_ok file chunks L C). destruct (expansion_none chunks E) as [a [codes [b [r [E1 [E2 E3]]]]]].
  rewrite E1, (result_app [] a _ r E2). cbn [result]. rewrite E3. rewrite E1 in F. apply Forall_app in F. destruct F as [_ F]. rewrite (Forall_inv F). reflexivity.
Qed.
(* files too small or too large *)
Theorem C60_size file : (N.of_nat (length file) < 12 \/ 3000012 < N.of_nat (length file))%N -> lzw_expand file = Err ImageCorruptError.
Proof.
  intros H. unfold lzw_expand. destruct (N.ltb_spec (N.of_nat (length file)) 12); [reflexivity|]. destruct (N.ltb_spec 3000000 (N.of_nat (length file) - 12)); [reflexivity|lia].
Qed.
(* It panics exactly when the first chunk with a bad code starts with that code. *)
Theorem C60_panics file chunks : (12 <= N.of_nat (length file) <= 3000012)%N -> chunked (lsb_body file) chunks ->
  (lzw_expand file = Panic <-> exists a codes b out, chunks = a ++ codes :: b /\ expansion a = Some out /\ starts_with_byte codes = false).
Proof.
  intros L C. rewrite (lzw_expand_ok file chunks L C). split.
  - intros E. destruct (expansion chunks) as [out|] eqn:Ex; [rewrite (result_some [] chunks out Ex) in E; discriminate|].
    destruct (expansion_none chunks Ex) as [a [codes [b [r [E1 [E2 E3]]]]]]. exists a, codes, b, r. split; [exact E1|]. split; [exact E2|].
    rewrite E1, (result_app [] a _ r E2) in E. cbn [result] in E. rewrite E3 in E. destruct (starts_with_byte codes); [discriminate|reflexivity].
  - intros [a [codes [b [r [E1 [E2 E3]]]]]]. rewrite E1, (result_app [] a _ r E2). cbn [result].
    destruct codes as [|c codes]; [discriminate|]. cbn [starts_with_byte] in E3. cbn [phrases]. unfold phrase. rewrite E3.
    replace (nth_error (@nil (list N)) (N.to_nat (c - 256))) with (@None (list N)) by (destruct (N.to_nat (c - 256)); reflexivity).
    cbn [starts_with_byte]. rewrite E3. reflexivity.
Qed.
(* the claim that no file makes it panic does not hold: one code, 256, after the header *)
Theorem C60_no_panic_refuted : exists file, bytes_ok file = true /\ lzw_expand file = Panic.
Proof. exists (repeat 0%N 12 ++ [3; 0; 0; 1]%N). split; vm_compute; reflexivity. Qed.
(* the codes 65 and 256: A, then AA *)
Example C60_example_chunked : chunked (lsb_body (repeat 7%N 12 ++ [6; 0; 0x41; 0; 0x10]%N)) [[65; 256]%N].
Proof.
  change (lsb_body (repeat 7%N 12 ++ [6; 0; 0x41; 0; 0x10]%N)) with (lsb 16 6 ++ flat_map (lsb 12) [65; 256]%N ++ []).
  apply chunked_next; [reflexivity| |reflexivity|apply chunked_end; cbn [length]; lia]. constructor; [reflexivity|]. constructor; [reflexivity|constructor].
Qed.
Example C60_example : expansion [[65; 256]%N] = Some [65; 65; 65]%N /\ lzw_expand (repeat 7%N 12 ++ [6; 0; 0x41; 0; 0x10]%N) = Ok (lzw_expanded [65; 65; 65]%N).
Proof. split; vm_compute; reflexivity. Qed.
(* a second chunk starts with fresh strings: 66, then 256 = BB; the first chunk's 256 is gone *)
Example C60_example_fresh : expansion [[65; 256]; [66; 256]]%N = Some [65; 65; 65; 66; 66; 66]%N /\ expansion [[65; 66]; [66; 65; 256]]%N = Some [65; 66; 66; 65; 66; 65]%N.
Proof. split; vm_compute; reflexivity. Qed.

Print Assumptions C60_chunked.
Print Assumptions C60_expands.
Print Assumptions C60_rejects.
Print Assumptions C60_size.
Print Assumptions C60_panics.
Print Assumptions C60_no_panic_refuted.
