(** The part of MuJoCo / mjx that mjinx reads: the compiled model, the
    simulation data and name lookup.  These are external libraries; the
    definitions below record the documented layout mjinx relies on. *)
From Verif Require Import Base Lin.
Open Scope R_scope.
Open Scope nat_scope.

(** mujoco.mjtJoint: exactly four joint types. *)
Inductive jnttype := JFree | JBall | JHinge | JSlide.
Definition jnttype_eq_dec (a b : jnttype) : {a = b} + {a <> b}. Proof. decide equality. Defined.

(** mujoco.mjtObj as used by mjinx: body, geom, site; [OOther] any other code. *)
Inductive objtype := OBody | OGeom | OSite | OOther (code : nat).
Definition objtype_eqb (a b : objtype) : bool :=
  match a, b with
  | OBody, OBody => true | OGeom, OGeom => true | OSite, OSite => true
  | OOther x, OOther y => Nat.eqb x y
  | _, _ => false
  end.

(** mujoco.mjtEq: connect, weld, joint; [EqOther] the remaining codes. *)
Inductive eqtype := EqConnect | EqWeld | EqJoint | EqOther (code : nat).

(** mjx.Model, restricted to the fields mjinx reads. *)
Record mjmodel := {
  m_nq : nat; m_nv : nat; m_njnt : nat; m_nbody : nat; m_neq : nat;
  m_jnt_type : list jnttype;
  m_jnt_qposadr : list nat;
  m_jnt_dofadr : list nat;
  m_jnt_range : list (R * R);
  m_body_weldid : list Z;
  m_body_parentid : list Z;
  m_body_rootid : list Z;
  m_body_geomadr : list Z;        (* -1 when the body has no geom *)
  m_body_geomnum : list Z;
  m_body_mass : list R;
  m_geom_bodyid : list Z;
  m_geom_contype : list Z;
  m_geom_conaffinity : list Z;
  m_geom_type : list Z;
  m_geom_dataid : list Z;
  m_geom_priority : list Z;
  m_geom_condim : list Z;
  m_site_bodyid : list Z;
  m_dof_bodyid : list Z;
  m_eq_type : list eqtype;
  m_names : list (objtype * string * Z);    (* name table *)
}.

(** mjx.name2id: index of the named object, -1 if there is none. *)
Fixpoint lookup_name (t : list (objtype * string * Z)) (ty : objtype) (s : string) : Z :=
  match t with
  | [] => (-1)%Z
  | (ty', s', i) :: r => if objtype_eqb ty ty' && String.eqb s s' then i else lookup_name r ty s
  end.
Definition name2id (m : mjmodel) (ty : objtype) (s : string) : Z := lookup_name (m_names m) ty s.

(** mjx.Data, restricted to the fields mjinx reads. *)
Record mjdata := {
  d_qpos : list R;
  d_xpos : list (list R);            (* nbody x 3 *)
  d_xmat : list (list R);            (* nbody x 9, row-major *)
  d_xquat : list (list R);           (* nbody x 4, scalar first *)
  d_xipos : list (list R);
  d_geom_xpos : list (list R);
  d_geom_xmat : list (list R);
  d_site_xpos : list (list R);
  d_site_xmat : list (list R);
  d_subtree_com : list (list R);
  d_cdof : list (list R);            (* nv x 6: angular, linear *)
  d_efc_pos : list R;
  d_efc_is_equality : list bool;     (* efc_type == mjCNSTR_EQUALITY *)
  d_efc_J : list (list R);
}.

(** Sizes of one joint in qpos and in qvel (MuJoCo layout). *)
Definition jnt_nq (t : jnttype) : nat := match t with JFree => 7 | JBall => 4 | _ => 1 end.
Definition jnt_nv (t : jnttype) : nat := match t with JFree => 6 | JBall => 3 | _ => 1 end.
Definition is_scalar (t : jnttype) : bool := match t with JHinge | JSlide => true | _ => false end.

(** Consistency of the joint tables guaranteed by the MuJoCo compiler:
    addresses are running sums of the joint sizes and cover qpos and qvel. *)
Fixpoint adrs (size : jnttype -> nat) (start : nat) (ts : list jnttype) : list nat :=
  match ts with [] => [] | t :: r => start :: adrs size (start + size t) r end.
Definition total (size : jnttype -> nat) (ts : list jnttype) : nat := fold_right (fun t n => size t + n) 0 ts.

Definition wf_joints (m : mjmodel) : Prop :=
  m_njnt m = List.length (m_jnt_type m) /\
  m_jnt_qposadr m = adrs jnt_nq 0 (m_jnt_type m) /\
  m_jnt_dofadr m = adrs jnt_nv 0 (m_jnt_type m) /\
  m_nq m = total jnt_nq (m_jnt_type m) /\
  m_nv m = total jnt_nv (m_jnt_type m) /\
  List.length (m_jnt_range m) = List.length (m_jnt_type m).
