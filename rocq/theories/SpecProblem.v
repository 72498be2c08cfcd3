(** Vocabulary for histories of problems and shared components. *)
From Verif Require Import Base Lin Mjx Typing Component Problem SpecComponent SpecHistory.
Open Scope nat_scope.

(** A program: every component object comes from a public constructor. *)
Definition legal (o : wop) : Prop := match o with WNewComp c => constructed c | _ => True end.
(** All array arguments are arrays (shape and data agree). *)
Definition wf_wop (o : wop) : Prop :=
  match o with
  | WNewProblem _ lo hi => wf_tensor lo /\ wf_tensor hi
  | WVmin _ t | WVmax _ t => wf_tensor t
  | _ => True
  end.

(** The state reached by a program. *)
Definition state (os : list wop) : world := run os empty_world.

(** The name of component [ci] in state [w]. *)
Definition name_of (w : world) (ci : nat) (n : string) : Prop :=
  exists c, nth_error (w_comps w) ci = Some c /\ a_name (c_at c) = n.
Definition problem_of (w : world) (pi : nat) (p : prob) : Prop := nth_error (w_probs w) pi = Some p.

(** "[ci] was added to problem [pi] under name [n] by call number [k] of the
    program [os], and that name was not removed afterwards." *)
Definition added_at (pi : nat) (os : list wop) (k : nat) (n : string) (ci : nat) : Prop :=
  nth_error os k = Some (WAdd pi ci) /\
  fst (step (WAdd pi ci) (state (firstn k os))) = Ok ODone /\
  name_of (state (firstn k os)) ci n /\
  ~ In (WRemove pi n) (skipn (S k) os).

(** Same value for every public attribute of every component, same problems. *)
Definition same_visible (w w' : world) : Prop :=
  w_probs w' = w_probs w /\ Forall2 same_public (w_comps w) (w_comps w').

(** What a limit argument means for a model with [nv] degrees of freedom. *)
Definition limit_means (nv : nat) (t : tensor) (v : list R) : Prop :=
  (exists x, t = mkT [] [x] /\ v = repeat x nv) \/ (t_shape t = [nv] /\ v = t_data t).

(** Only the model [m] is used, through documented calls only. *)
Definition single (m : mjmodel) (o : wop) : Prop :=
  match o with
  | WNewProblem m' _ _ => m' = m
  | WCop _ (OpModel m') => m' = m
  | WCop _ (OpAssign _) => False
  | _ => True
  end.
