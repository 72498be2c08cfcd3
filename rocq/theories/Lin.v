(** Vectors and matrices over lists of reals: the jnp operations used by the
    solver ([@], [.T], [eye], [diag], [vstack], [concatenate], [dot]). *)
From Verif Require Import Base.
Open Scope R_scope.

Definition vec := list R.
Definition mat := list (list R).          (* list of rows *)

Definition vzero (n : nat) : vec := repeat 0 n.
Definition vconst (n : nat) (x : R) : vec := repeat x n.   (* jnp.ones(n) * x *)
Definition vmap2 (f : R -> R -> R) (a b : vec) : vec := map (fun p => f (fst p) (snd p)) (combine a b).
Definition vadd := vmap2 Rplus.
Definition vsub := vmap2 Rminus.
Definition vmul := vmap2 Rmult.
Definition vscale (k : R) (a : vec) : vec := map (Rmult k) a.
Definition vneg (a : vec) : vec := map Ropp a.
Fixpoint vsum (a : vec) : R := match a with [] => 0 | x :: r => x + vsum r end.
Definition dot (a b : vec) : R := vsum (vmul a b).

Definition mv (A : mat) (v : vec) : vec := map (fun row => dot row v) A.         (* A @ v *)
Fixpoint vm (n : nat) (w : vec) (A : mat) : vec :=                                 (* w @ A *)
  match w, A with
  | x :: w', r :: A' => vadd (vscale x r) (vm n w' A')
  | _, _ => vzero n
  end.
Definition mm (n : nat) (A B : mat) : mat := map (fun row => vm n row B) A.        (* A @ B, B has n columns *)
Definition tr (n : nat) (A : mat) : mat :=                                         (* A.T, A has n columns *)
  map (fun j => map (fun row => nth j row 0) A) (seq 0 n).
Definition madd (A B : mat) : mat := map (fun p => vadd (fst p) (snd p)) (combine A B).
Definition mscale (k : R) (A : mat) : mat := map (vscale k) A.
Definition mneg (A : mat) : mat := map vneg A.
Definition unit_row (n i : nat) : vec := map (fun j => if Nat.eqb i j then 1 else 0) (seq 0 n).
Definition eye (n : nat) : mat := map (unit_row n) (seq 0 n).
Definition diag (d : vec) : mat :=
  map (fun i => map (fun j => if Nat.eqb i j then nth i d 0 else 0) (seq 0 (List.length d)))
      (seq 0 (List.length d)).
Definition mzero (r c : nat) : mat := repeat (vzero c) r.

(** Frobenius norm squared: [jnp.linalg.norm(J) ** 2]. *)
Definition frob2 (A : mat) : R := vsum (map (fun r => dot r r) A).

Definition is_mat (r c : nat) (A : mat) : Prop :=
  List.length A = r /\ Forall (fun row => List.length row = c) A.
Definition is_matb (r c : nat) (A : mat) : bool :=
  Nat.eqb (List.length A) r && forallb (fun row => Nat.eqb (List.length row) c) A.

(** Entrywise order on vectors of the same length. *)
Definition vle (a b : vec) : Prop := Forall2 Rle a b.
Definition vnonneg (a : vec) : Prop := Forall (fun x => 0 <= x) a.
