(** Vocabulary for the global IK solver. *)
From Verif Require Import Base Lin Mjx Typing Component Problem JaxComponents GlobalIK SpecQP.
Open Scope R_scope.

Definition is_constraint (j : jaxc) : bool := match j_ext j with JConstraint _ _ _ _ => true | _ => false end.

(** Sum of the entries of [x] weighted by [g]. *)
Fixpoint wsum (g x : vec) : R := match g, x with a :: g', b :: x' => a * b + wsum g' x' | _, _ => 0 end.
(** Barrier values count between 10^-9 and 1 only. *)
Definition clamped (x : R) : R := if Rle_dec x (1 / 10 ^ 9) then 1 / 10 ^ 9 else if Rle_dec 1 x then 1 else x.
Definition penalty (x : R) : R := - ln (clamped x).
Definition square (x : R) : R := x * x.

(** [x]: what component [j] adds to the loss at data [d]; one gain per entry of its value. *)
Definition contributes (L : lib) (d : mjdata) (j : jaxc) (x : R) : Prop :=
  exists e, call L j d = Ok e /\ List.length e = List.length (j_gain j) /\ is_constraint j = false /\
  x = wsum (j_gain j) (map (if is_barrier j then penalty else square) e).
Definition contributions (L : lib) (d : mjdata) (pd : jdata) (xs : list R) : Prop := Forall2 (contributes L d) (comps_of pd) xs.
Definition nonneg_gain (j : jaxc) : Prop := Forall (fun g => 0 <= g) (j_gain j).
Definition total_of (xs : list R) : R := fold_right Rplus 0 xs.

(** Everything a task or barrier asks for is met where it has weight: errors vanish,
    barrier values are at least 1. *)
Definition content (L : lib) (d : mjdata) (j : jaxc) : Prop :=
  exists e, call L j d = Ok e /\
  forall i g x, nth_error (j_gain j) i = Some g -> nth_error e i = Some x -> g = 0 \/ (if is_barrier j then 1 <= x else x = 0).

(** Two compiled components that differ at most in cost, damping and gain function. *)
Definition same_but_cost (j j' : jaxc) : Prop :=
  j_dim j = j_dim j' /\ j_model j = j_model j' /\ j_gain j = j_gain j' /\ j_mask_idxs j = j_mask_idxs j' /\
  match j_ext j, j_ext j' with
  | JTask _ _ k, JTask _ _ k' => k = k'
  | JBarrier _ k, JBarrier _ k' => k = k'
  | JConstraint _ _ _ k, JConstraint _ _ _ k' => k = k'
  | _, _ => False
  end.

(** Partial derivatives, and a differentiation procedure that finds the gradient of a
    function defined on all vectors of the given length whenever it has one. *)
Definition partial_derivative (F : vec -> R) (x : vec) (i : nat) (l : R) : Prop :=
  derivable_pt_lim (fun t => F (replace_nth i t x)) (nth i x 0) l.
Definition sound_grad (grad : gradient) : Prop :=
  forall f F x g, List.length g = List.length x -> (forall y, List.length y = List.length x -> f y = Ok (F y)) ->
    (forall i, (i < List.length x)%nat -> partial_derivative F x i (nth i g 0)) -> grad f x = Ok g.

(** Plain gradient descent with step [r]. *)
Definition descent (r : R) : optimizer := mkOpt unit (fun _ => tt) (fun g st => (vscale (- r) g, st)).

(** Libraries that keep the lengths of the vectors they are given. *)
Definition grad_keeps_length (grad : gradient) : Prop := forall f x g, grad f x = Ok g -> List.length g = List.length x.
Definition step_keeps_length (O : optimizer) : Prop := forall g st, List.length (fst (o_update O g st)) = List.length g.
