(* SectorView_spec.v - a disk as a flat file of bytes. *)
From Coq Require Import List.
From Verif Require Import Base Chs_model Types_model DiskImage_model Format_model Format_spec SectorView_model.
Import ListNotations.
Local Open Scope N_scope.

(* the position of a sector in the flat file, in sectors: sectors fastest, then heads, then cylinders *)
Definition sector_no (f : StandardFormat) (c h s : N) : N := (c * l_h (sf_layout f) + h) * l_s (sf_layout f) + (s - 1).
Definition sector_at (flat : list N) (k : N) : list N := slice flat (N.to_nat (k * 512)) 512.
(* the disk holds the flat file: every sector reads as its 512 bytes of it *)
Definition holds (d : DiskImage) (f : StandardFormat) (flat : list N) : Prop :=
  N.of_nat (length flat) = sf_disk_size f /\
  forall c h s, in_layout f c h s -> forall rnd,
    di_read_sector_basic rnd d (mkCh c h) (sector_query c h s) None = Ok (sector_at flat (sector_no f c h s)).
(* A kind of disk P on which sector writes work: the disk stays of this kind, and exactly the sector written changes. *)
Definition sector_store (f : StandardFormat) (P : DiskImage -> list N -> Prop) : Prop :=
  forall d flat, P d flat -> holds d f flat /\
    forall c h s data, in_layout f c h s -> length data = 512%nat -> bytes_ok data = true ->
      exists d', di_write_sector_basic d (mkCh c h) (sector_query c h s) None data = (d', Ok tt) /\
        P d' (splice flat (N.to_nat (sector_no f c h s * 512)) data).

(* calls of the view and their results *)
Inductive VOp : Set := VRead (n : nat) | VSeek (s : SeekFrom) | VWrite (b : list N) | VFlush.
Inductive VRes : Set := RBytes (b : list N) | RPos (p : N) | RWritten (n : N) | RDone | RError.
Definition v_call (rnd : Rnd) (v : View) (op : VOp) : option (View * VRes) :=
  match op with
  | VRead n => match v_read rnd n v with (v, Ok b) => Some (v, RBytes b) | (v, Err _) => Some (v, RError) | (_, Panic) => None end
  | VSeek s => match v_seek rnd v s with (v, Ok p) => Some (v, RPos p) | (v, Err _) => Some (v, RError) | (_, Panic) => None end
  | VWrite b => match v_write rnd b v with (v, Ok n) => Some (v, RWritten n) | (v, Err _) => Some (v, RError) | (_, Panic) => None end
  | VFlush => match v_flush v with (v, Ok _) => Some (v, RDone) | (v, Err _) => Some (v, RError) | (_, Panic) => None end
  end.
(* rnds : the random numbers of each call *)
Fixpoint v_calls (rnds : nat -> Rnd) (k : nat) (v : View) (ops : list VOp) : option (View * list VRes) :=
  match ops with
  | [] => Some (v, [])
  | op :: t => match v_call (rnds k) v op with
               | Some (v, r) => match v_calls rnds (S k) v t with Some (v, rs) => Some (v, r :: rs) | None => None end
               | None => None
               end
  end.

(* ---- the flat file ---- *)
Definition target (flat : list N) (p : N) (s : SeekFrom) : Z :=
  match s with FromStart o => Z.of_N o | FromEnd z => Z.of_nat (length flat) + z | FromCurrent z => Z.of_N p + z end.
(* A seek before the start goes to the start; a seek to the end or beyond is an error. *)
Definition flat_seek (flat : list N) (p : N) (s : SeekFrom) : N * VRes :=
  let t := Z.to_N (target flat p s) in
  if t <? N.of_nat (length flat) then (t, RPos t) else (p, RError).
Definition flat_read (flat : list N) (p : N) (n : nat) : N * VRes :=
  let b := slice flat (N.to_nat p) n in (p + N.of_nat (length b), RBytes b).
(* contents, position, results *)
Fixpoint flat_calls (flat : list N) (p : N) (ops : list VOp) : list N * N * list VRes :=
  match ops with
  | [] => (flat, p, [])
  | op :: t =>
      let '(flat', p', r) := match op with
        | VRead n => let (p', r) := flat_read flat p n in (flat, p', r)
        | VSeek s => let (p', r) := flat_seek flat p s in (flat, p', r)
        | VWrite b => (splice flat (N.to_nat p) b, p + N.of_nat (length b), RWritten (N.of_nat (length b)))
        | VFlush => (flat, p, RDone)
        end in
      let '(flat'', p'', rs) := flat_calls flat' p' t in (flat'', p'', r :: rs)
  end.

(* ---- histories for which the view is a flat file ----
   ended: a read was cut short by the end of the disk.  Then only an absolute seek to another sector than sector 1 of
   the last track is allowed (and reads, which return nothing).
   dirty: sector k has been written to and not been stored.  Then reads and writes stay in sector k, until a flush or a
   seek to another sector; such a seek stays on the same track. *)
Definition last_track (f : StandardFormat) : N := (l_c (sf_layout f) * l_h (sf_layout f) - 1) * l_s (sf_layout f).
Definition allowed_seek (f : StandardFormat) (flat : list N) (p : N) (ended : bool) (dirty : option N) (s : SeekFrom) : Prop :=
  (ended = true -> (forall z, s <> FromCurrent z) /\ Z.to_N (target flat p s) / 512 <> last_track f) /\
  (forall k, dirty = Some k -> Z.to_N (target flat p s) < N.of_nat (length flat) ->
     Z.to_N (target flat p s) / 512 / l_s (sf_layout f) = k / l_s (sf_layout f)).
Definition dirty_after (flat : list N) (p : N) (s : SeekFrom) (dirty : option N) : option N :=
  match dirty with
  | Some k => if (Z.to_N (target flat p s) <? N.of_nat (length flat)) && negb (Z.to_N (target flat p s) / 512 =? k) then None else Some k
  | None => None
  end.
Fixpoint careful (f : StandardFormat) (flat : list N) (p : N) (ended : bool) (dirty : option N) (ops : list VOp) : Prop :=
  match ops with
  | [] => True
  | VRead n :: t =>
      (forall k, dirty = Some k -> p + N.of_nat n <= (k + 1) * 512) /\
      careful f flat (fst (flat_read flat p n)) (ended || (N.of_nat (length flat) <? p + N.of_nat n)) dirty t
  | VSeek s :: t =>
      allowed_seek f flat p ended dirty s /\
      careful f flat (fst (flat_seek flat p s)) (ended && negb (Z.to_N (target flat p s) <? N.of_nat (length flat))) (dirty_after flat p s dirty) t
  | VWrite b :: t =>
      (ended = false /\ bytes_ok b = true /\ b <> [] /\ p + N.of_nat (length b) <= (p / 512 + 1) * 512 /\
       p + N.of_nat (length b) <= N.of_nat (length flat) /\ (forall k, dirty = Some k -> p / 512 = k)) /\
      careful f (splice flat (N.to_nat p) b) (p + N.of_nat (length b)) false (Some (p / 512)) t
  | VFlush :: t => careful f flat p ended None t
  end.
(* nothing is left unflushed *)
Fixpoint clean_end (dirty : bool) (ops : list VOp) : Prop :=
  match ops with
  | [] => dirty = false
  | VWrite _ :: t => clean_end true t
  | VFlush :: t => clean_end false t
  | _ :: t => clean_end dirty t
  end.

Definition read_only (op : VOp) : Prop := match op with VWrite _ => False | _ => True end.
(* no read asks for more bytes than remain, no write *)
Fixpoint within (flat : list N) (p : N) (ops : list VOp) : Prop :=
  match ops with
  | [] => True
  | VRead n :: t => p + N.of_nat n <= N.of_nat (length flat) /\ within flat (p + N.of_nat n) t
  | VSeek s :: t => within flat (fst (flat_seek flat p s)) t
  | VWrite _ :: t => False
  | VFlush :: t => within flat p t
  end.
(* the contents of a freshly formatted disk *)
Definition fresh_flat (f : StandardFormat) (B : list N) : list N := B ++ repeat 0 (N.to_nat (sf_disk_size f) - 512).
