(** mjinx/typing.py *)
From Verif Require Import Base.
From Coq Require Import Ascii.
Open Scope nat_scope.

(** typing.py:42-50 *)
Inductive limit_type := LMin | LMax | LBoth.

(** [str.lower()] on ASCII letters (non-ASCII case folding is not modelled). *)
Definition lower_ascii (c : ascii) : ascii :=
  let n := nat_of_ascii c in
  if Nat.leb 65 n && Nat.leb n 90 then ascii_of_nat (n + 32) else c.
Fixpoint lower (s : string) : string :=
  match s with EmptyString => EmptyString | String c r => String (lower_ascii c) (lower r) end.

(** typing.py:53-70 *)
Definition from_str (s : string) : res limit_type :=
  let l := lower s in
  if String.eqb l "min"%string then Ok LMin
  else if String.eqb l "max"%string then Ok LMax
  else if String.eqb l "both"%string then Ok LBoth
  else Err ValueError.

(** typing.py:73-81 *)
Definition includes_min (t : limit_type) : bool := match t with LMin | LBoth => true | LMax => false end.
(** typing.py:84-93 *)
Definition includes_max (t : limit_type) : bool := match t with LMax | LBoth => true | LMin => false end.
