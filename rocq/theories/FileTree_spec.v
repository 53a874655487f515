(* FileTree_spec.v - the words of property C80, without the functions of the model. *)
From Coq Require Import List.
From Verif Require Import Base FileTree_model.
Import ListNotations.

(* the directory that the names lead to, from directory t on *)
Inductive leads : FNode -> list str -> FNode -> Prop :=
| leads_here : forall e cs, leads (FDirectory e cs) [] (FDirectory e cs)
| leads_down : forall e cs d ds n ns u, In (FDirectory d ds) cs -> fe_short d = n -> leads (FDirectory d ds) ns u -> leads (FDirectory e cs) (n :: ns) u.
(* no directory holds two directories of one name *)
Inductive unambiguous : FNode -> Prop :=
| un_file : forall e, unambiguous (FFile e)
| un_dir : forall e cs, (forall d1 c1 d2 c2, In (FDirectory d1 c1) cs -> In (FDirectory d2 c2) cs -> fe_short d1 = fe_short d2 -> FDirectory d1 c1 = FDirectory d2 c2) ->
    Forall unambiguous cs -> unambiguous (FDirectory e cs).
(* the files below t, in the order of the directories *)
Inductive lists : FNode -> list FEntry -> Prop :=
| lists_file : forall e, lists (FFile e) [e]
| lists_dir : forall e cs ls, Forall2 lists cs ls -> lists (FDirectory e cs) (concat ls).
Inductive below : FNode -> FEntry -> Prop :=
| below_file : forall e, below (FFile e) e
| below_dir : forall e cs c f, In c cs -> below c f -> below (FDirectory e cs) f.
(* names that can be part of a path, and the paths of them: any number of slashes before the first name and after the last, at least one
   between two.  Every string is such a path (FileTree_props.v: every_path). *)
Definition name_ok (n : str) : Prop := n <> [] /\ ~ In 0x2F%N n.
Definition slashes (k : nat) : str := repeat 0x2F%N k.
Inductive path_of : list str -> str -> Prop :=
| path_end : forall k, path_of [] (slashes k)
| path_last : forall k n, name_ok n -> path_of [n] (slashes k ++ n)
| path_cons : forall k n ns p, name_ok n -> path_of ns p -> path_of (n :: ns) (slashes k ++ n ++ 0x2F%N :: p).
