(* Lock_spec.v - the words of property C79: who holds what, calm schedules, client programs.  Independent of the tracking tables
   of the model: only the guards alive (l_live, the state of the std RwLock) are mentioned. *)
From Coq Require Import List.
From Verif Require Import Base Lock_model.
Import ListNotations.

(* some read or write guard of context c is alive *)
Definition holder (s : LState) (c : nat) : Prop := exists g, In g (l_live s) /\ g_ctx g = Some c.
Definition writer (s : LState) (c : nat) : Prop := exists g, In g (l_live s) /\ g_kind g = KWrite /\ g_ctx g = Some c.
(* a guard's `drop` body has run and its RwLock guard is still held: another thread runs between the two *)
Definition mid_drop (s : LState) : Prop := exists g, In g (l_live s) /\ g_tracked g = false.
(* only TrackingLock's own guards are used on this lock, and no thread panics while it drops one *)
Definition calm_op (op : LOp) : Prop :=
  match op with LForeignRead | LForeignWrite => False | LRelease _ p => p = false | _ => True end.
(* One thread: a guard is dropped in one go *)
Inductive Client : Set := CRead (c : nat) | CWrite (c : nat) | CDrop (i : nat).
Definition client_ops (x : Client) : list LOp :=
  match x with CRead c => [LRead c] | CWrite c => [LWrite c] | CDrop i => [LUntrack i; LRelease i false] end.
Definition uses_mutex (op : LOp) : Prop := match op with LRead _ | LWrite _ | LUntrack _ => True | _ => False end.
