(* FileTree_model.v - src/file_system/file_tree.rs (FileEntry, FileTreeNode): the tree of a file system.  No proofs here.
   Strings are lists of bytes; '/' is 0x2F, '.' is 0x2E.  The dates and Display are dropped. *)
From Coq Require Import List Bool.
From Verif Require Import Base.
Import ListNotations.

Definition str := list N.
(* 29-52 *)
Record FEntry : Set := mkFe { fe_dir : bool; fe_short : str; fe_long : option str; fe_path : str; fe_size : N }.
Inductive NameType : Set := NShort | NLong.
(* 78-83 name *)
Definition fe_name (e : FEntry) (t : NameType) : option str := match t with NShort => Some (fe_short e) | NLong => fe_long e end.
(* str::split(c): the pieces between the separators, at least one *)
Fixpoint split_at (c : N) (l : str) : list str :=
  match l with
  | [] => [[]]
  | x :: t => if (x =? c)%N then [] :: split_at c t
              else match split_at c t with p :: r => (x :: p) :: r | [] => [[x]] end
  end.
(* 122-132 ext *)
Definition fe_ext (e : FEntry) : option str :=
  let parts := split_at 0x2E (fe_short e) in
  if 1 <? length parts then nth_error parts (length parts - 1) else None.
(* 143-147 *)
Inductive FNode : Set := FFile (e : FEntry) | FDirectory (e : FEntry) (children : list FNode).
(* 202-209 is_file, is_dir *)
Definition is_dir (t : FNode) : bool := match t with FDirectory _ _ => true | FFile _ => false end.
Definition entry (t : FNode) : FEntry := match t with FFile e => e | FDirectory e _ => e end.
(* 176-186 sub_dir_ct; 195-200 children *)
Definition children (t : FNode) : list FNode := match t with FDirectory _ cs => cs | FFile _ => [] end.
Definition sub_dir_ct (t : FNode) : nat := length (filter is_dir (children t)).
Definition nonempty (s : str) : bool := match s with [] => false | _ => true end.
Definition str_eqb (a b : str) : bool := if list_eq_dec N.eq_dec a b then true else false.
(* path.split('/').filter(non-empty) *)
Definition components (path : str) : list str := filter nonempty (split_at 0x2F path).
(* 275-300 resolve_node: the first directory of that name *)
Fixpoint resolve_node (cs : list str) (t : FNode) : option FNode :=
  match t with
  | FFile _ => None
  | FDirectory _ ch =>
      match cs with
      | [] => Some t
      | c :: rest => match find (fun x => is_dir x && str_eqb (fe_short (entry x)) c) ch with
                     | Some x => resolve_node rest x
                     | None => None
                     end
      end
  end.
(* 268-272 node *)
Definition node (t : FNode) (path : str) : option FNode := resolve_node (components path) t.
(* 303-339 resolve_dir *)
Fixpoint resolve_dir (recursive : bool) (cs : list str) (t : FNode) : option (list FEntry) :=
  match t with
  | FFile _ => None
  | FDirectory _ ch =>
      match cs with
      | [] => Some (map entry ch)
      | c :: rest => if recursive then
                       match find (fun x => is_dir x && str_eqb (fe_short (entry x)) c) ch with
                       | Some x => resolve_dir true rest x
                       | None => None
                       end
                     else None
      end
  end.
(* 212-216 dir *)
Definition dir (t : FNode) (path : str) : option (list FEntry) := resolve_dir false (components path) t.
(* 219-229 for_each_file: the entries the function is called with *)
Fixpoint for_each_file (recursive : bool) (t : FNode) : list FEntry :=
  match t with
  | FFile e => [e]
  | FDirectory _ ch => if recursive then flat_map (for_each_file true) ch else []
  end.
(* 231-254 file_names, 256-266 file_paths *)
Definition file_names (recursive : bool) (t : FNode) (ty : NameType) : list str :=
  map (fun e => match ty with NShort => fe_short e | NLong => match fe_long e with None => fe_short e | Some n => n end end) (for_each_file recursive t).
Definition file_paths (recursive : bool) (t : FNode) : list str := map fe_path (for_each_file recursive t).
