(* Base.v - outcome type, list and bit helpers shared by all model files. *)
From Coq Require Export List Arith NArith ZArith Lia Bool.
From Coq Require FinFun.
From Coq Require Export ZifyBool ZifyNat ZifyN.
Export ListNotations.

(* lia with div/mod expanded (kept out of the default lia: it makes lia slow) *)
Ltac dlia := zify; Z.to_euclidean_division_equations; lia.

Arguments N.add : simpl never.
Arguments N.mul : simpl never.
Arguments N.sub : simpl never.
Arguments N.div : simpl never.
Arguments N.modulo : simpl never.
Arguments N.eqb : simpl never.
Arguments N.ltb : simpl never.
Arguments N.leb : simpl never.
Arguments N.pow : simpl never.
Arguments Nat.modulo : simpl never.
Arguments Nat.div : simpl never.

(* Error values: the variants of DiskImageError (src/lib.rs / src/diskimage.rs error enum) that the
   modelled functions return.  Payload strings are dropped. *)
Inductive err : Set :=
| SeekError | ParameterError | UnsupportedFormat | UnknownFormat | FormatParseError
| CrcError | DataError | IdError | UniqueIdError | ResolutionError | SyncError | IoError
| ResolveError | UnsupportedFilesystem | FsError | ArchiveError | MultiDiskError | PlatformMismatch | FormatMismatch | FilesystemError
| IncompatibleImage | BitstreamError | ImageCorruptError | MetadataError | SchemaError | WriteProtectError
(* DateTimeError, src/file_system/date_time.rs:37-45 *)
| Before1970 | YearTooLarge | InternalOutOfRange.

(* Result of a Rust call: a value, an error value, or a panic (failed index, `unwrap`, checked
   arithmetic of a debug build, `unimplemented!`). *)
Inductive outcome (A : Type) : Type :=
| Ok (a : A) | Err (e : err) | Panic.
Arguments Ok {A} _. Arguments Err {A} _. Arguments Panic {A}.

Definition obind {A B} (x : outcome A) (f : A -> outcome B) : outcome B :=
  match x with Ok a => f a | Err e => Err e | Panic => Panic end.
Definition omap {A B} (f : A -> B) (x : outcome A) : outcome B :=
  obind x (fun a => Ok (f a)).
Declare Scope outcome_scope.
Delimit Scope outcome_scope with outcome.
Notation "'let!' x ':=' e1 'in' e2" := (obind e1 (fun x => e2))
  (at level 200, x pattern, right associativity) : outcome_scope.
Open Scope outcome_scope.

(* List update at a position; unchanged when out of range (callers guard with a Panic). *)
Fixpoint upd {A} (l : list A) (i : nat) (x : A) : list A :=
  match l, i with
  | [], _ => []
  | _ :: t, O => x :: t
  | h :: t, S j => h :: upd t j x
  end.

(* l[i..i+n] ; callers guard the range. *)
Definition slice {A} (l : list A) (i n : nat) : list A := firstn n (skipn i l).

(* Overwrite l[i..i+len src] with src; callers guard the range. *)
Definition splice {A} (l : list A) (i : nat) (src : list A) : list A :=
  firstn i l ++ src ++ skipn (i + length src) l.

(* 0, 1, ..., n-1 *)
Definition Nseq (n : N) : list N := map N.of_nat (seq 0 (N.to_nat n)).

(* Bits of a byte, most significant first, and back (bit-vec's Msb order / u8 shifting). *)
Definition byte_bits (b : N) : list bool :=
  [N.testbit b 7; N.testbit b 6; N.testbit b 5; N.testbit b 4;
   N.testbit b 3; N.testbit b 2; N.testbit b 1; N.testbit b 0].
Definition bits_val (l : list bool) : N :=
  fold_left (fun acc (x : bool) => (2 * acc + (if x then 1 else 0))%N) l 0%N.
Definition is_byte (b : N) : bool := (b <? 256)%N.
Definition bytes_ok (l : list N) : bool := forallb is_byte l.

(* u8 / u16 / u32 truncating casts *)
Definition as_u8 (x : N) : N := (x mod 256)%N.
Definition as_u16 (x : N) : N := (x mod 65536)%N.
Definition as_u32 (x : N) : N := (x mod 4294967296)%N.

(* for x in l { s = f(s, x)?; } *)
Fixpoint ofold {S A} (f : S -> A -> outcome S) (l : list A) (s : S) : outcome S :=
  match l with
  | [] => Ok s
  | x :: t => let! s' := f s x in ofold f t s'
  end.
Definition b2N (b : bool) : N := if b then 1%N else 0%N.
(* l[i] : panics out of range *)
Definition oindex {A} (l : list A) (i : nat) : outcome A :=
  match nth_error l i with Some x => Ok x | None => Panic end.
