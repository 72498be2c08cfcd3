(** Vocabulary for splitting a task into tasks over fewer axes. *)
From Verif Require Import Base Lin Mjx Typing Component Problem SpecComponent SpecJoint SpecHistory SpecProblem Rot SpecConf Conf FrameJac JaxComponents LocalIK SpecQP SpecSolve SpecMotion SpecTree SpecShape SpecFit SpecValue SpecDeriv SpecMask.
From Coq Require Import Permutation.
Open Scope R_scope.

(** Task [j] is split into the tasks [js]: every axis of [j] belongs to exactly one of
    [parts], task number i of [js] is [j] masked to part number i with the gains, weights
    and damping [j] has there, and the weight of [j] does not mix axes of different parts
    (which a scalar or vector cost never does). *)
Definition split_into (parts : list (list nat)) (j : jaxc) (js : list jaxc) : Prop :=
  exists W lm k, j_ext j = JTask W lm k /\ Permutation (List.concat parts) (seq 0 (List.length W)) /\
  (forall a b, ~ (exists as_, In as_ parts /\ In a as_ /\ In b as_) -> nth b (nth a W []) 0 = 0) /\
  Forall2 (fun as_ j' => masked as_ j j' /\ j_model j' = j_model j /\ j_gain j' = coords as_ (j_gain j) /\ (forall x, j_gain_fn j' x = j_gain_fn j x) /\ exists k', j_ext j' = JTask (block_at as_ W) lm k') parts js.
(** Same robot and limits. *)
Definition same_setting (pd pd' : jdata) : Prop := jd_model pd' = jd_model pd /\ jd_vmin pd' = jd_vmin pd /\ jd_vmax pd' = jd_vmax pd.

(** The rows of an unmasked position barrier with both sides (p - lo for three axes, then
    hi - p for three axes) that a barrier with limit type [lt] on the axes [as_] has. *)
Definition barrier_rows (lt : string) (as_ : list nat) : list nat :=
  (if String.eqb lt "max" then [] else as_) ++ (if String.eqb lt "min" then [] else map (Nat.add 3) as_).
(** [j'] guards these rows of [j], with the same limits and gains. *)
Definition narrowed (rows : list nat) (j j' : jaxc) : Prop :=
  exists mk lt on ty lo hi, position_barrier None on ty "both" j /\ position_barrier mk on ty lt j' /\ has_pose ty /\ mask_within 3 mk /\ rows = barrier_rows lt (axes 3 mk) /\
  p_limits_are "both" j lo hi /\ p_limits_are lt j' (coords (axes 3 mk) lo) (coords (axes 3 mk) hi) /\
  j_model j' = j_model j /\ j_gain j' = coords rows (j_gain j) /\ (forall x, j_gain_fn j' x = j_gain_fn j x).
(** Every side of every axis is guarded by one of [js] (or by several). *)
Definition fenced_by (parts : list (list nat)) (j : jaxc) (js : list jaxc) : Prop :=
  (forall a, (a < 6)%nat -> exists rows, In rows parts /\ In a rows) /\ Forall2 (fun rows j' => narrowed rows j j') parts js.
(** The robot's kinematics and the barrier [j] are regular at [q], and [js] guard its rows:
    well-formed simulator data everywhere, a sound differentiator, a differentiable value. *)
Definition fence_setting (L : lib) (nv : nat) (q : vec) (j : jaxc) (parts : list (list nat)) (js : list jaxc) : Prop :=
  let m := j_model j in let d := update L m q in
  (forall y, List.length y = m_nq m -> wf_data m (update L m y)) /\ sound_jac (l_jacrev L) /\ smooth L j 6 q /\ kinematic L j /\ Forall (kinematic L) js /\ List.length q = m_nq m /\ d_qpos d = q /\ fits L nv d j /\ fenced_by parts j js.
