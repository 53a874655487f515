(* KfxSet_spec.v - the files of a KryoFlux set.  (Names are lists of character codes; test_name, lower and the digits of a number are
   characterised by C67_names.) *)
From Verif Require Import Base Kfx_model.
Local Open Scope nat_scope.

(* the value of decimal digits *)
Definition dec_value (ds : list N) : N := fold_left (fun v d => (10 * v + (d - 48))%N) ds 0%N.
(* name = prefix, two digits, a period, a digit, ".raw" and a rest *)
Definition stream_name (name prefix rest : list N) : Prop :=
  exists a b h, is_digit a = true /\ is_digit b = true /\ is_digit h = true /\ name = prefix ++ [a; b; 46; h; 46; 114; 97; 119]%N ++ rest.
(* a file of that cylinder and head is in the listing (whatever its directory and the case of its letters) *)
Definition present (listing : list Path) (base : list N) (c h : N) : Prop := exists f, In f listing /\ map lower (snd f) = test_name base c h.
(* all (cylinder, head) in order *)
Definition sides (cyls : nat) : list (N * N) := flat_map (fun c => [(N.of_nat c, 0%N); (N.of_nat c, 1%N)]) (seq 0 cyls).
