(** Vocabulary for finite time steps: a velocity is held while values curve away. *)
From Verif Require Import Base Lin Mjx Typing Component Problem SpecComponent SpecJoint SpecHistory Conf JaxComponents LocalIK SpecMotion SpecQP SpecSolve SpecClosed SpecDescent SpecTol.
Open Scope R_scope.

(** While the velocity [v] is held for the time [dt], the data pass through [ds]; the value of [j]
    changes at the rate J v, and after the time t that rate differs from the one at the start by at
    most M t in every row: [M] bounds the acceleration of the value. *)
Definition steady (M : R) (L : lib) (dt : R) (v : vec) (ds : R -> mjdata) (j : jaxc) : Prop :=
  exists a b, a < 0 /\ dt < b /\ flows L a b (fun _ => v) ds j /\
  forall t J0 Jt, 0 <= t <= dt -> jacobian L j (ds 0) = Ok J0 -> jacobian L j (ds t) = Ok Jt -> close_by (M * t) (mv Jt v) (mv J0 v).

(** Step after step: [q k] is the configuration, [v k] a velocity that meets the conditions of the
    problem of that step up to [eps], [ds k] the data on the way to the next configuration. *)
Definition sampled_loop (eps M : R) (L : lib) (m : mjmodel) (pd : nat -> jdata) (dt : R) (q v : nat -> vec) (ds : nat -> R -> mjdata) (j : jaxc) : Prop :=
  forall k, integrate m (q k) (v k) dt = Ok (q (S k)) /\ nearly eps L (update L m (q k)) (pd k) (v k) /\
    ds k 0 = update L m (q k) /\ (forall t x, 0 < t <= dt -> integrate m (q k) (v k) t = Ok x -> ds k t = update L m x) /\
    steady M L dt (v k) (ds k) j.
