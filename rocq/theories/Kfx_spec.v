(* Kfx_spec.v - KryoFlux stream files, independently of the loader. *)
From Verif Require Import Base Flux_model.
Local Open Scope nat_scope.

(* A stream is a sequence of blocks.  The in-band blocks are the transitions (1, 2 or 3 bytes), the overflow mark and fillers; the out-of-band
   blocks (OOB) carry information about the stream.  Fields the loader has no use for are kept as bytes. *)
Inductive block : Set :=
| BFlux1 (b : N) | BFlux2 (hi lo : N) | BFlux3 (hi lo : N) | BOvl16 | BNop1 | BNop2 (x : N) | BNop3 (x y : N)
| BStreamInfo (fields : list N) | BIndex (size pos sample counter : list N) | BStreamEnd (fields status : list N)
| BKfInfo (size text : list N) | BUnknown (type : N).
(* little-endian number *)
Fixpoint le (l : list N) : N := match l with [] => 0 | b :: t => b + 256 * le t end%N.
Definition valid_block (b : block) : Prop :=
  match b with
  | BFlux1 b => (0x0E <= b < 256)%N
  | BFlux2 hi lo => (hi <= 7 /\ lo < 256)%N
  | BFlux3 hi lo => (hi < 256 /\ lo < 256)%N
  | BOvl16 | BNop1 => True
  | BNop2 x => (x < 256)%N
  | BNop3 x y => (x < 256 /\ y < 256)%N
  | BStreamInfo f => length f = 10 /\ bytes_ok f = true
  | BIndex size pos sample counter => length size = 2 /\ length pos = 4 /\ length sample = 4 /\ length counter = 4 /\ bytes_ok (size ++ pos ++ sample ++ counter) = true
  | BStreamEnd f status => length f = 6 /\ length status = 4 /\ bytes_ok (f ++ status) = true
  | BKfInfo size text => length size = 2 /\ bytes_ok (size ++ text) = true /\ ~ In 0%N text
  | BUnknown t => (t < 256)%N /\ ~ In t [1; 2; 3; 4; 0x0D]%N
  end.
Definition block_bytes (b : block) : list N :=
  match b with
  | BFlux1 b => [b]
  | BFlux2 hi lo => [hi; lo]
  | BFlux3 hi lo => [0x0C; hi; lo]
  | BOvl16 => [0x0B]
  | BNop1 => [8]
  | BNop2 x => [9; x]
  | BNop3 x y => [0x0A; x; y]
  | BStreamInfo f => [0x0D; 1] ++ f
  | BIndex size pos sample counter => [0x0D; 2] ++ size ++ pos ++ sample ++ counter
  | BStreamEnd f status => [0x0D; 3] ++ f ++ status
  | BKfInfo size text => [0x0D; 4] ++ size ++ text ++ [0]
  | BUnknown t => [0x0D; t]
  end%N.
(* the stream ends with an end-of-file block; what follows does not matter *)
Definition stream_bytes (bs : list block) (rest : list N) : list N := flat_map block_bytes bs ++ [0x0D; 0x0D]%N ++ rest.

(* stream positions: the in-band bytes before a block *)
Definition in_band (b : block) : N :=
  match b with
  | BFlux1 _ | BOvl16 | BNop1 => 1 | BFlux2 _ _ | BNop2 _ => 2 | BFlux3 _ _ | BNop3 _ _ => 3 | _ => 0
  end%N.
(* what the loader counts instead: overflow marks and three-byte transitions are left out *)
Definition counted (b : block) : N := match b with BFlux3 _ _ | BOvl16 => 0%N | _ => in_band b end.
Definition total (size : block -> N) (bs : list block) : N := fold_right (fun b n => (size b + n)%N) 0%N bs.
(* the transitions: position of the block and ticks since the transition before; `ovl` are the ticks of overflow marks *)
Fixpoint transitions (size : block -> N) (pos ovl : N) (bs : list block) : list (N * N) :=
  match bs with
  | [] => []
  | b :: t =>
      let next := transitions size (pos + size b)%N in
      match b with
      | BFlux1 x => (pos, ovl + x)%N :: next 0%N t
      | BFlux2 hi lo | BFlux3 hi lo => (pos, ovl + (hi * 256 + lo))%N :: next 0%N t
      | BOvl16 => next (ovl + 0x10000)%N t
      | _ => next ovl t
      end
  end.
(* the index blocks: stream position and counter *)
Definition indexes (bs : list block) : list (N * N) := flat_map (fun b => match b with BIndex _ pos _ counter => [(le pos, le counter)] | _ => [] end) bs.
Definition statuses (bs : list block) : list N := flat_map (fun b => match b with BStreamEnd _ status => [le status] | _ => [] end) bs.
(* the texts (printable characters) and the number of transitions before each *)
Definition printable (text : list N) : list N := filter (fun b => (32 <=? b)%N && (b <? 128)%N) text.
Fixpoint texts (n : nat) (bs : list block) : list (nat * list N) :=
  match bs with
  | [] => []
  | BKfInfo _ text :: t => match printable text with [] => texts n t | p => (n, p) :: texts n t end
  | (BFlux1 _ | BFlux2 _ _ | BFlux3 _ _) :: t => texts (S n) t
  | _ :: t => texts n t
  end.

(* the transitions from one position to another *)
Definition between (lo hi : N) (l : list (N * N)) : list N := map snd (filter (fun x => (lo <=? fst x)%N && (fst x <? hi)%N) l).
(* The revolutions of a stream: one between every two neighbouring index positions the stream reaches. *)
Definition stream_revolutions (size : block -> N) (bs : list block) (revs : list Rev) : Prop :=
  S (length revs) = length (filter (fun x => (fst x <=? total size bs)%N) (indexes bs)) /\
  forall i a b, i < length revs -> nth_error (indexes bs) i = Some a -> nth_error (indexes bs) (S i) = Some b ->
    nth_error revs i = Some (between (fst a) (fst b) (transitions size 0 0 bs), ((snd b + 2 ^ 32 - snd a) mod 2 ^ 32)%N).
(* index positions are in order, and more than a block apart *)
Definition spaced (l : list (N * N)) : Prop := forall i a b, nth_error l i = Some a -> nth_error l (S i) = Some b -> (fst a + 3 <= fst b)%N.
