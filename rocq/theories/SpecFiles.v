(** Files in a list of directories (name, files with their contents). *)
From Verif Require Import Base Problem.
Definition holds_file (dirs : list (string * list (string * string))) (name c : string) : Prop :=
  exists d files, In (d, files) dirs /\ assoc name files = Some c.
(** [c] is the content of the file in the first directory that has one of this name. *)
Definition first_file (dirs : list (string * list (string * string))) (name c : string) : Prop :=
  exists before d files after, dirs = before ++ (d, files) :: after /\ assoc name files = Some c /\
    forall e, In e before -> assoc name (snd e) = None.
