(* Lock_model.v - src/disk_lock.rs (NonTrackingDiskLock, RefLock) and crates/ff_egui_lib/src/tracking_lock.rs
   (TrackingLock): the locks around a disk image, as a transition system.  No proofs here.
   Threads are not named: a schedule is any list of steps.  Steps are atomic: `read`, `write` and the `drop` bodies of the
   guards run under the tracking mutex; the fields of a guard (its RwLock guard) are dropped after its `drop` body, with the mutex
   released: that is a step of its own (Release).
   A UiLockContext is a number.  std::sync::RwLock: try_read fails iff a write guard is alive or the lock is
   poisoned, try_write iff any guard is alive or it is poisoned; a write guard dropped in a panicking thread poisons the lock.
   The overflow of the reader count of RwLock is not modelled.  std::sync::Mutex: a panic under the mutex poisons it,
   and then `lock().unwrap()` panics.  Log output and reference counts are dropped. *)
From Coq Require Import List.
From Verif Require Import Base.
Import ListNotations.

Inductive Kind : Set := KRead | KWrite.
(* a guard whose RwLock guard is alive: g_ctx is None for guards of NonTrackingDiskLock (a lock converted by
   tracking_lock.rs 88-92 or made from the same Arc); g_tracked says that the `drop` body of the tracking guard has not yet run *)
Record Guard : Set := mkGuard { g_id : nat; g_kind : Kind; g_ctx : option nat; g_tracked : bool }.
(* the RwLock (guards alive, poison flag), the tracking data (read_locks, write_lock) and the poison flag of their mutex *)
Record LState : Set := mkL {
  l_live : list Guard; l_next : nat; l_rpoison : bool; l_reads : list (nat * nat); l_write : option nat; l_mpoison : bool }.
(* 96-105 new, from_arc on a lock that is not held *)
Definition l_init : LState := mkL [] 0 false [] None false.

Definition is_write (g : Guard) : bool := match g_kind g with KWrite => true | KRead => false end.
(* RwLock::try_read, try_write *)
Definition can_read (s : LState) : bool := negb (existsb is_write (l_live s)) && negb (l_rpoison s).
Definition can_write (s : LState) : bool := match l_live s with [] => negb (l_rpoison s) | _ => false end.
Definition add_guard (s : LState) (k : Kind) (c : option nat) : LState :=
  mkL (mkGuard (l_next s) k c (match c with Some _ => true | None => false end) :: l_live s) (S (l_next s)) (l_rpoison s) (l_reads s) (l_write s) (l_mpoison s).
Definition with_reads (s : LState) (m : list (nat * nat)) : LState := mkL (l_live s) (l_next s) (l_rpoison s) m (l_write s) (l_mpoison s).
Definition with_write (s : LState) (w : option nat) : LState := mkL (l_live s) (l_next s) (l_rpoison s) (l_reads s) w (l_mpoison s).
Definition with_live (s : LState) (l : list Guard) : LState := mkL l (l_next s) (l_rpoison s) (l_reads s) (l_write s) (l_mpoison s).
Definition poison_mutex (s : LState) : LState := mkL (l_live s) (l_next s) (l_rpoison s) (l_reads s) (l_write s) true.
Definition poison_lock (s : LState) : LState := mkL (l_live s) (l_next s) true (l_reads s) (l_write s) (l_mpoison s).

(* HashMap<UiLockContext, usize>: get, `*entry(c).or_insert(0) += 1`, remove; the keys are distinct *)
Fixpoint rl_get (c : nat) (m : list (nat * nat)) : option nat :=
  match m with [] => None | (k, n) :: t => if k =? c then Some n else rl_get c t end.
Fixpoint rl_incr (c : nat) (m : list (nat * nat)) : list (nat * nat) :=
  match m with [] => [(c, 1)] | (k, n) :: t => if k =? c then (k, S n) :: t else (k, n) :: rl_incr c t end.
Definition rl_remove (c : nat) (m : list (nat * nat)) : list (nat * nat) := filter (fun x => negb (fst x =? c)) m.
Fixpoint rl_set (c v : nat) (m : list (nat * nat)) : list (nat * nat) :=
  match m with [] => [] | (k, n) :: t => if k =? c then (k, v) :: t else (k, n) :: rl_set c v t end.

Inductive LOp : Set :=
| LRead (c : nat) | LWrite (c : nat)                       (* TrackingLock::read, write *)
| LUntrack (i : nat)                                       (* the `drop` body of tracking guard i *)
| LRelease (i : nat) (panicking : bool)                    (* the RwLock guard of i is dropped *)
| LForeignRead | LForeignWrite.                            (* NonTrackingDiskLock::read, write on the same lock *)
Inductive LRes : Set := RGuard (i : nat) | RErr (holders : list nat) | RPanic | RDone.

(* tracking_lock.rs 122-153 read *)
Definition l_read (s : LState) (c : nat) : LState * LRes :=
  if l_mpoison s then (s, RPanic)
  else match l_write s with
       | Some w => (s, RErr [w])
       | None => if can_read s then (add_guard (with_reads s (rl_incr c (l_reads s))) KRead (Some c), RGuard (l_next s))
                 else (poison_mutex s, RPanic)
       end.
(* 155-194 write: write_lock is set before try_write and stays set when that fails *)
Definition l_write_op (s : LState) (c : nat) : LState * LRes :=
  if l_mpoison s then (s, RPanic)
  else match l_reads s with
       | _ :: _ => (s, RErr (map fst (l_reads s)))
       | [] => match l_write s with
               | Some w => (s, RErr [w])
               | None => let s := with_write s (Some c) in
                         if can_write s then (add_guard s KWrite (Some c), RGuard (l_next s)) else (poison_mutex s, RPanic)
               end
       end.
Definition find_guard (s : LState) (i : nat) : option Guard := find (fun g => g_id g =? i) (l_live s).
Definition mark_untracked (i : nat) (g : Guard) : Guard :=
  if g_id g =? i then mkGuard (g_id g) (g_kind g) (g_ctx g) false else g.
(* 221-237 and 262-289 drop; `*count -= 1` is checked arithmetic.  Whether it panics or not, the fields are dropped next. *)
Definition l_untrack (s : LState) (g : Guard) (c : nat) : LState * LRes :=
  let s := with_live s (map (mark_untracked (g_id g)) (l_live s)) in
  if l_mpoison s then (s, RPanic)
  else match g_kind g with
       | KRead => match rl_get c (l_reads s) with
                  | Some (S n) => (with_reads s (match n with O => rl_remove c (l_reads s) | _ => rl_set c n (l_reads s) end), RDone)
                  | Some O => (poison_mutex s, RPanic)
                  | None => (s, RDone)
                  end
       | KWrite => match l_write s with
                   | Some w => if w =? c then (with_write s None, RDone) else (s, RDone)
                   | None => (s, RDone)
                   end
       end.
Definition l_release (s : LState) (g : Guard) (panicking : bool) : LState :=
  let s' := with_live s (filter (fun x => negb (g_id x =? g_id g)) (l_live s)) in
  if is_write g && panicking then poison_lock s' else s'.
(* One step; None if it is not possible: a guard is released after its `drop` body, which runs once. *)
Definition l_step (s : LState) (op : LOp) : option (LState * LRes) :=
  match op with
  | LRead c => Some (l_read s c)
  | LWrite c => Some (l_write_op s c)
  | LUntrack i => match find_guard s i with
                  | Some g => match g_ctx g, g_tracked g with Some c, true => Some (l_untrack s g c) | _, _ => None end
                  | None => None
                  end
  | LRelease i p => match find_guard s i with
                    | Some g => if g_tracked g then None else Some (l_release s g p, RDone)
                    | None => None
                    end
  (* disk_lock.rs 176-188 *)
  | LForeignRead => Some (if can_read s then (add_guard s KRead None, RGuard (l_next s)) else (s, RErr []))
  | LForeignWrite => Some (if can_write s then (add_guard s KWrite None, RGuard (l_next s)) else (s, RErr []))
  end.
Fixpoint l_run (s : LState) (ops : list LOp) : option (LState * list LRes) :=
  match ops with
  | [] => Some (s, [])
  | op :: t => match l_step s op with
               | Some (s', r) => match l_run s' t with Some (s'', rs) => Some (s'', r :: rs) | None => None end
               | None => None
               end
  end.

(* RefLock (disk_lock.rs 81-123): RefCell::borrow and borrow_mut panic on a conflict; readers is the number of Ref
   alive, None while a RefMut is alive *)
Definition ref_read (readers : option nat) : outcome (option nat) := match readers with Some n => Ok (Some (S n)) | None => Panic end.
Definition ref_write (readers : option nat) : outcome (option nat) := match readers with Some O => Ok None | _ => Panic end.
