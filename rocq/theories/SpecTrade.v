(** Vocabulary for comparing a problem with a changed one: more damping, another speed,
    a higher cost, a further restriction, the same thing written differently. *)
From Verif Require Import Base Lin Mjx Typing Component Problem JaxComponents LocalIK SpecQP SpecSolve.
Open Scope R_scope.

(** The number that penalises velocity as such: Levenberg-Marquardt damping of a task, safe
    displacement gain of a barrier, nothing for a constraint. *)
Definition damping (j : jaxc) : R := match j_ext j with JTask _ lm _ => lm | JBarrier g _ => g | JConstraint _ _ _ _ => 0 end.
(** The same component with this number set to [x]. *)
Definition redamped (x : R) (j : jaxc) : jaxc :=
  mkJ (j_dim j) (j_model j) (j_gain j) (j_gain_fn j) (j_mask_idxs j)
    match j_ext j with JTask W _ k => JTask W x k | JBarrier _ k => JBarrier x k | e => e end.
(** [pd'] is [pd] with nothing changed but damping, and none of it lowered. *)
Definition damped_up (pd pd' : jdata) : Prop :=
  jd_model pd' = jd_model pd /\ jd_vmin pd' = jd_vmin pd /\ jd_vmax pd' = jd_vmax pd /\
  Forall2 (fun j j' => redamped 0 j' = redamped 0 j /\ damping j <= damping j') (comps_of pd) (comps_of pd').
(** Damping of [j] has an effect: a barrier, or a task whose weighted error is not zero. *)
Definition reacts (L : lib) (d : mjdata) (j : jaxc) : Prop :=
  match j_ext j with
  | JTask W _ _ => exists e x, call L j d = Ok e /\ In x (mv W (gained j e)) /\ x <> 0
  | JBarrier _ _ => True
  | JConstraint _ _ _ _ => False
  end.
(** Assigning the damping attribute of a component. *)
Definition set_damping (x : R) (a : attrs) : attrs :=
  match a_ext a with
  | XTask t _ k => set_a_ext a (XTask t x k)
  | XBarrier _ k => set_a_ext a (XBarrier x k)
  | XConstraint _ _ _ _ => a
  end.

(** The same problem at [s] times the speed: gains and velocity limits multiplied by [s];
    Levenberg-Marquardt damping multiplies the squared gain, so it is divided by [s] squared. *)
Definition sped (s : R) (j : jaxc) : jaxc :=
  mkJ (j_dim j) (j_model j) (vscale s (j_gain j)) (j_gain_fn j) (j_mask_idxs j)
    match j_ext j with JTask W lm k => JTask W (lm / (s * s)) k | e => e end.
Definition sped_problem (s : R) (pd : jdata) : jdata :=
  mkJD (jd_model pd) (vscale s (jd_vmin pd)) (vscale s (jd_vmax pd)) (map (fun e => (fst e, sped s (snd e))) (jd_comps pd)).
(** Calls that multiply the gain of each component in [cis] and the limits of problem [pi]. *)
Definition gain_of (w : world) (ci : nat) : tensor := match nth_error (w_comps w) ci with Some c => a_gain (c_at c) | None => tscalar 0 end.
Definition limits_of (w : world) (pi : nat) : vec * vec := match nth_error (w_probs w) pi with Some p => (p_vmin p, p_vmax p) | None => ([], []) end.
Definition speed_up (s : R) (w : world) (pi : nat) (cis : list nat) : list wop :=
  map (fun ci => WCop ci (OpGain (scaled_array s (gain_of w ci)))) cis ++
  [WVmin pi (tvec (vscale s (fst (limits_of w pi)))); WVmax pi (tvec (vscale s (snd (limits_of w pi))))].
(** [cis] lists the components of problem [pi], each once. *)
Definition lists_all (w : world) (pi : nat) (cis : list nat) : Prop :=
  NoDup cis /\ forall ci, In ci cis <-> exists p n, nth_error (w_probs w) pi = Some p /\ In (n, ci) (p_comps p).
Definition undamped (j : jaxc) : Prop := match j_ext j with JTask _ lm _ => lm = 0 | _ => True end.

(** [j] only restricts: a barrier without safe displacement gain, or a hard constraint. *)
Definition restricts (j : jaxc) : Prop := match j_ext j with JTask _ _ _ => False | JBarrier g _ => g = 0 | JConstraint _ h _ _ => h = true end.
(** [v] obeys [j]. *)
Definition obeys (L : lib) (d : mjdata) (v : vec) (j : jaxc) : Prop := (is_barrier j = true -> cbf L d v j) /\ (is_hard j = true -> holds_exactly L d v j).
(** [v] stays strictly inside barrier [j]: J v > - gain * gain_fn(h), entry by entry. *)
Definition strictly_inside (L : lib) (d : mjdata) (v : vec) (j : jaxc) : Prop :=
  is_barrier j = true /\ forall J e, jacobian L j d = Ok J -> call L j d = Ok e -> Forall2 Rlt (vneg (gained j e)) (mv J v).
(** The same problem with one more component. *)
Definition extended (pd : jdata) (n : string) (j : jaxc) : jdata := with_components pd (jd_comps pd ++ [(n, j)]).
(** The same problem with the same or wider velocity limits. *)
Definition loosened (pd pd' : jdata) : Prop := jd_model pd' = jd_model pd /\ jd_comps pd' = jd_comps pd /\ vle (jd_vmin pd') (jd_vmin pd) /\ vle (jd_vmax pd) (jd_vmax pd').
(** A soft constraint on a user function written as a task without damping. *)
Definition as_task (j : jaxc) : jaxc :=
  mkJ (j_dim j) (j_model j) (j_gain j) (j_gain_fn j) (j_mask_idxs j)
    match j_ext j with JConstraint _ false W (JCCustom f) => JTask W 0 (JTCustom f) | e => e end.
