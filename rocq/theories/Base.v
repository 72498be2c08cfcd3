(** Shared vocabulary of the model: exceptions as values, array values,
    numpy- and JAX-style indexing.  No property is stated here. *)
From Coq Require Export List ZArith Reals Lia Lra String Bool Permutation Sorted.
Export ListNotations.
Open Scope list_scope.
Open Scope R_scope.
Open Scope nat_scope.

(** Python exceptions raised by mjinx or by the libraries it calls.
    [NonFinite] is not an exception: it marks the places where JAX would
    silently produce NaN/inf (division by zero). *)
Inductive exn :=
| ValueError | IndexError | TypeError | AttributeError | KeyError
| NotImplementedError | NonFinite.

Inductive res (A : Type) := Ok (a : A) | Err (e : exn).
Arguments Ok {A} _.
Arguments Err {A} _.

Definition bind {A B} (x : res A) (f : A -> res B) : res B :=
  match x with Ok a => f a | Err e => Err e end.
Notation "'do' x <- e ; f" := (bind e (fun x => f))
  (at level 200, x pattern, e at level 100, f at level 200, right associativity).

Definition is_ok {A} (x : res A) : bool := match x with Ok _ => true | Err _ => false end.

Fixpoint mapM {A B} (f : A -> res B) (l : list A) : res (list B) :=
  match l with
  | [] => Ok []
  | x :: r => do y <- f x; do ys <- mapM f r; Ok (y :: ys)
  end.

(** A numpy/JAX array: shape and row-major data (float rounding is not modelled). *)
Record tensor := mkT { t_shape : list nat; t_data : list R }.

Definition ndim (t : tensor) : nat := List.length (t_shape t).
Definition tscalar (x : R) : tensor := mkT [] [x].
Definition tvec (l : list R) : tensor := mkT [List.length l] l.
Definition wf_tensor (t : tensor) : Prop :=
  List.length (t_data t) = fold_right Nat.mul 1 (t_shape t).

(** [a.shape[-1]]: IndexError on a 0-d array. *)
Definition last_dim (t : tensor) : res nat :=
  match rev (t_shape t) with [] => Err IndexError | n :: _ => Ok n end.

(** Cut row-major data into [r] rows of [c] entries. *)
Fixpoint rows_of (r c : nat) (d : list R) : list (list R) :=
  match r with
  | O => []
  | S r' => firstn c d :: rows_of r' c (skipn c d)
  end.

(** numpy indexing [a[i]]: negative indices wrap once, otherwise IndexError. *)
Definition np_idx {A} (l : list A) (i : Z) : res A :=
  let n := Z.of_nat (List.length l) in
  let j := if (i <? 0)%Z then (i + n)%Z else i in
  if ((j <? 0) || (n <=? j))%Z then Err IndexError
  else match nth_error l (Z.to_nat j) with Some a => Ok a | None => Err IndexError end.

(** JAX indexing [a[i]]: negative indices wrap once, then the index is clamped
    into range; an empty axis cannot be indexed. *)
Definition jx_idx {A} (l : list A) (i : Z) : res A :=
  let n := Z.of_nat (List.length l) in
  let j := if (i <? 0)%Z then (i + n)%Z else i in
  let k := Z.max 0 (Z.min j (n - 1)) in
  match nth_error l (Z.to_nat k) with Some a => Ok a | None => Err IndexError end.

Definition jx_gather {A} (l : list A) (idx : list Z) : res (list A) := mapM (jx_idx l) idx.

(** JAX binary operation on two 1-d arrays: equal lengths, or one of length 1
    is broadcast; TypeError otherwise. *)
Definition bc2 (f : R -> R -> R) (a b : list R) : res (list R) :=
  if Nat.eqb (List.length a) (List.length b) then
    Ok (map (fun p => f (fst p) (snd p)) (combine a b))
  else match a, b with
  | [x], _ => Ok (map (fun y => f x y) b)
  | _, [y] => Ok (map (fun x => f x y) a)
  | _, _ => Err TypeError
  end.

(** [range(a, b)] on integers. *)
Definition zrange (a b : Z) : list Z := map (fun k => (a + Z.of_nat k)%Z) (seq 0 (Z.to_nat (b - a))).
