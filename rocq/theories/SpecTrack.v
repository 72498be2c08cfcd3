(** Vocabulary for following targets that move while a control loop runs. *)
From Verif Require Import Base Lin Mjx Typing Component Problem SpecComponent SpecJoint SpecHistory Conf JaxComponents LocalIK SpecMotion SpecQP SpecSolve SpecClosed SpecDescent SpecTol SpecStep SpecMove SpecGoals.
Open Scope R_scope.

(** Velocity [v] gives [j] the rate it asks for, J v = - gain * gain_fn(e), up to [eps] per row. *)
Definition nearly_met (eps : R) (L : lib) (d : mjdata) (v : vec) (j : jaxc) : Prop :=
  forall J e, jacobian L j d = Ok J -> call L j d = Ok e -> close_by eps (mv J v) (vneg (gained j e)).

(** Between two steps [j] becomes [j'] (a new target, say): the gains stay as they are and the
    error at data [d] changes by at most [delta] per row. *)
Definition moved_by (delta : R) (L : lib) (d : mjdata) (j j' : jaxc) : Prop :=
  j_gain j' = j_gain j /\ forall e e', call L j d = Ok e -> call L j' d = Ok e' -> close_by delta e' e.

(** A loop with steps of length [dt]: [q k] is the configuration at step k, [v k] the velocity
    held during that step, [ds k] the data passed on the way, [js k] the task as compiled at
    step k.  The rates of the error accelerate by at most [M] during a step, and moving the
    target shifts the error by at most [s] per unit of time. *)
Definition chasing (M s : R) (L : lib) (m : mjmodel) (dt : R) (q v : nat -> vec) (ds : nat -> R -> mjdata) (js : nat -> jaxc) : Prop :=
  forall k, integrate m (q k) (v k) dt = Ok (q (S k)) /\ ds k 0 = update L m (q k) /\ (forall t x, 0 < t <= dt -> integrate m (q k) (v k) t = Ok x -> ds k t = update L m x) /\
    steady M L dt (v k) (ds k) (js k) /\ moved_by (s * dt) L (update L m (q (S k))) (js k) (js (S k)).
