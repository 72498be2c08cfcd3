(** Vocabulary for points fixed to a body. *)
From Verif Require Import Base Lin Mjx SpecShape.
Open Scope R_scope.

(** World coordinates of the point with coordinates [x] in the frame of object [i]. *)
Definition carried (d : mjdata) (ty : objtype) (i : nat) (x : list R) : list R :=
  map (fun r => nth r (position d ty i) 0 + (nth (3 * r) (orientation d ty i) 0 * nth 0 x 0 + nth (3 * r + 1) (orientation d ty i) 0 * nth 1 x 0 + nth (3 * r + 2) (orientation d ty i) 0 * nth 2 x 0)) [0; 1; 2]%nat.
