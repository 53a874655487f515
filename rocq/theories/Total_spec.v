(* Total_spec.v - which cells stop the program. *)
From Verif Require Import Base.
Import ListNotations.
Local Open Scope nat_scope.

(* the cells of a track: those of the data, or 1010... if there are none, cut to the length given *)
Definition input_cells (data : list N) (ct : option nat) : list bool :=
  let l := match data, ct with [], Some n => map Nat.even (seq 0 n) | _, _ => flat_map byte_bits data end in
  match ct with Some n => firstn n l | None => l end.
(* an index mark (C2 C2 C2 FC), and an address mark (A1 A1 A1 and a byte), with the missing clocks, at cell p *)
Definition index_mark_at (l : list bool) (p : nat) : Prop := p + 64 <= length l /\ bits_val (slice l p 64) = 0x5224522452245552%N.
Definition address_mark_at (l : list bool) (p : nat) : Prop := p + 64 <= length l /\ bits_val (slice l p 48) = 0x448944894489%N.
(* the first mark of the track is at its first cell; an index mark in the first 5000 cells comes before all other marks *)
Definition mark_first (l : list bool) : Prop :=
  index_mark_at l 0 \/ (address_mark_at l 0 /\ forall p, p + 64 <= 5000 -> ~ index_mark_at l p).
