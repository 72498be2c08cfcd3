(** Specification for C82: batched targets and limits, one problem per row. *)
From Verif Require Import Base Lin Mjx Typing Component Problem SpecComponent SpecProblem SpecQP JaxTree.
Open Scope nat_scope.

(** Row [i] of an array along its first axis, [a[i]]. *)
Definition row (i : nat) (t : tensor) : tensor :=
  let k := fold_right Nat.mul 1 (tl (t_shape t)) in mkT (tl (t_shape t)) (firstn k (skipn (i * k) (t_data t))).
(** Slicing of one leaf for sample [i] of axis 0. *)
Definition slice (i : nat) (p : py) : py := match p with PArr t => PArr (row i t) | _ => p end.

(** The calls that accept arrays with leading axes: the array, the field of the
    compiled component that holds it, and the same call with row [i] only. *)
Definition array_of (o : cop) : option tensor :=
  match o with
  | OpTargetCom t | OpTargetPos t | OpTargetFrame (FSE3 t) | OpTargetFrame (FArr t) | OpTargetQ t
  | OpPMin t | OpPMax t | OpQMin t | OpQMax t => Some t
  | _ => None
  end.
Definition field_of (o : cop) : string :=
  match o with
  | OpTargetCom _ => "target_com" | OpTargetPos _ => "target_pos" | OpTargetFrame _ => "target_frame" | OpTargetQ _ => "target_q"
  | OpPMin _ => "p_min" | OpPMax _ => "p_max" | OpQMin _ => "q_min" | OpQMax _ => "q_max" | _ => ""
  end%string.
Definition with_row (i : nat) (o : cop) : cop :=
  match o with
  | OpTargetCom t => OpTargetCom (row i t) | OpTargetPos t => OpTargetPos (row i t)
  | OpTargetFrame (FSE3 t) => OpTargetFrame (FSE3 (row i t)) | OpTargetFrame (FArr t) => OpTargetFrame (FArr (row i t))
  | OpTargetQ t => OpTargetQ (row i t)
  | OpPMin t => OpPMin (row i t) | OpPMax t => OpPMax (row i t) | OpQMin t => OpQMin (row i t) | OpQMax t => OpQMax (row i t)
  | _ => o
  end.
(** An array of [N] rows, each at least one-dimensional. *)
Definition batched (N : nat) (o : cop) : Prop :=
  exists t s, array_of o = Some t /\ wf_tensor t /\ t_shape t = N :: s /\ s <> [].
(** A limit that the barrier's type excludes is not stored. *)
Definition stored (o : cop) (c : comp) : Prop :=
  match a_ext (c_at c) with
  | XBarrier _ (BPos p) =>
      match o with OpPMin _ => includes_min (pb_lt p) = true | OpPMax _ => includes_max (pb_lt p) = true | _ => True end
  | _ => True
  end.

(** One call: component, its name in the problem, operation. *)
Definition call := (nat * string * cop)%type.
Definition as_step (k : call) : wop := WCop (fst (fst k)) (snd k).
Definition as_row (i : nat) (k : call) : wop := WCop (fst (fst k)) (with_row i (snd k)).
Definition place (k : call) : list string := ["components"; snd (fst k); field_of (snd k)]%string.
(** Every call is on a component of the problem (under its name there, and no other
    name), with a batch of [N] rows, and it is accepted. *)
Fixpoint batch (N pi : nat) (ks : list call) (w : world) : Prop :=
  match ks with
  | [] => True
  | (ci, n, o) :: r =>
      (forall n', fst (step (WComponent pi n') w) = Ok (ORef ci) <-> n' = n) /\ batched N o /\
      (forall c, nth_error (w_comps w) ci = Some c -> stored o c) /\
      fst (step (WCop ci o) w) = Ok ODone /\ batch N pi r (snd (step (WCop ci o) w))
  end.
