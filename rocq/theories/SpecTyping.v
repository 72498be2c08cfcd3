(** Equality of strings up to letter case, and frame targets. *)
From Verif Require Import Base.
From Coq Require Import Ascii.
Open Scope nat_scope.

Definition letters_lower : string := "abcdefghijklmnopqrstuvwxyz".
Definition letters_upper : string := "ABCDEFGHIJKLMNOPQRSTUVWXYZ".
(** Two characters are equal, or the two forms of one letter. *)
Definition same_letter (a b : ascii) : Prop :=
  a = b \/ exists k, (String.get k letters_upper = Some a /\ String.get k letters_lower = Some b) \/
                     (String.get k letters_lower = Some a /\ String.get k letters_upper = Some b).
Inductive same_word : string -> string -> Prop :=
| same_nil : same_word EmptyString EmptyString
| same_cons a b s t : same_letter a b -> same_word s t -> same_word (String a s) (String b t).

(** A user target row: position xyz then quaternion wxyz.  The stored SE3 keeps
    quaternion wxyz first, then the translation. *)
Definition stored_frame (x y z qw qx qy qz : R) : list R := [qw; qx; qy; qz; x; y; z].
