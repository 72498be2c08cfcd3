(** Vocabulary for moving a target a little. *)
From Verif Require Import Base Lin Mjx Typing Component Problem SpecComponent JaxComponents LocalIK SpecQP SpecSolve SpecTol.
Open Scope R_scope.

(** Target of a joint, position or centre-of-mass task. *)
Definition target_of (j : jaxc) : option vec :=
  match j_ext j with
  | JTask _ _ (JTCom t) | JTask _ _ (JTPos _ _ t) | JTask _ _ (JTJoint t _) => if Nat.eqb (ndim t) 1 then Some (t_data t) else None
  | _ => None
  end.
(** The same task with target [t]. *)
Definition retarget (t : vec) (j : jaxc) : jaxc :=
  mkJ (j_dim j) (j_model j) (j_gain j) (j_gain_fn j) (j_mask_idxs j)
    match j_ext j with
    | JTask W lm (JTCom _) => JTask W lm (JTCom (tvec t))
    | JTask W lm (JTPos i ty _) => JTask W lm (JTPos i ty (tvec t))
    | JTask W lm (JTJoint _ q) => JTask W lm (JTJoint (tvec t) q)
    | e => e
    end.
(** The call that assigns a target to such a task. *)
Inductive aims (t : vec) (j : jaxc) : cop -> Prop :=
| aim_com W lm t0 : j_ext j = JTask W lm (JTCom t0) -> aims t j (OpTargetCom (tvec t))
| aim_pos W lm i ty t0 : j_ext j = JTask W lm (JTPos i ty t0) -> aims t j (OpTargetPos (tvec t))
| aim_joint W lm t0 q : j_ext j = JTask W lm (JTJoint t0 q) -> aims t j (OpTargetQ (tvec t)).

(** Two versions of an undamped task whose values may differ but not their Jacobians; the last
    argument is the squared length of the difference of their weighted errors. *)
Inductive shifted (L : lib) (d : mjdata) (j j' : jaxc) (y : R) : Prop :=
| shift W k k' J e e' : j_ext j = JTask W 0 k -> j_ext j' = JTask W 0 k' -> jacobian L j d = Ok J -> jacobian L j' d = Ok J -> call L j d = Ok e -> call L j' d = Ok e' ->
    y = sq (mv W (vsub (gained j e) (gained j' e'))) -> shifted L d j j' y.

(** Component [j] penalises every change [u] of velocity by at least [lam] times its squared
    length: by damping, by safe displacement, or because its weighted Jacobian reacts to every
    direction. *)
Inductive resists (L : lib) (nv : nat) (d : mjdata) (j : jaxc) (lam : R) : Prop :=
| resist_damping W lm k e : j_ext j = JTask W lm k -> 0 <= lm -> call L j d = Ok e -> lam <= lm * sq (mv W (gained j e)) -> resists L nv d j lam
| resist_barrier g k J : j_ext j = JBarrier g k -> jacobian L j d = Ok J -> lam <= g / frob2 J -> resists L nv d j lam
| resist_task W lm k J : j_ext j = JTask W lm k -> 0 <= lm -> jacobian L j d = Ok J -> (forall u, List.length u = nv -> lam * sq u <= sq (mv W (mv J u))) -> resists L nv d j lam.
(** All components except the one called [n]. *)
Definition others (n : string) (pd : jdata) : list jaxc := map snd (filter (fun c => negb (String.eqb (fst c) n)) (jd_comps pd)).
