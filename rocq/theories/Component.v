(** mjinx/components: the mutable Python-side components (Component and its
    subclasses), their setters, model binding, and compilation into JAX
    components with the [modified]-flag cache.

    A component is a record of attributes plus the flag and the cache.  Methods
    are state transformers returning a result or an exception; writes made
    before an exception stay in the state, as in Python. *)
From Verif Require Import Base Lin Mjx Typing.
Open Scope R_scope.
Open Scope Z_scope.
Open Scope nat_scope.

(** typing.py:25 [CollisionBody = int | str]; [CBOther]: a value of any other type. *)
Inductive cbody := CBInt (i : Z) | CBStr (s : string) | CBOther.

(** A mask argument as passed by the user, already converted by [jnp.array]. *)
Record marr := mkM { mk_shape : list nat; mk_data : list Z }.
Definition mvec (l : list Z) : marr := mkM [List.length l] l.

(** Attributes shared by ObjTask and ObjBarrier
    (_obj_task.py:110-128, _obj_barrier.py:115-142). *)
Record objref := mkO { ob_name : string; ob_type : objtype; ob_id : Z }.
Definition set_ob_id (o : objref) (i : Z) : objref := mkO (ob_name o) (ob_type o) i.

(** JointTask attributes (_joint_task.py:97-112). *)
Record jtask_at := mkJT { jt_final : option (list Z); jt_target : option tensor; jt_qidx : option (list Z) }.
(** JointBarrier attributes (_joint_barrier.py:104-122). *)
Record jbar_at := mkJB { jb_final : option (list Z); jb_qmin : option tensor; jb_qmax : option tensor;
                         jb_qidx : option (list Z) }.
(** PositionBarrier attributes (_obj_position_barrier.py:97-155). *)
Record pbar_at := mkPB { pb_obj : objref; pb_lt : limit_type; pb_lt_idxs : list Z;
                         pb_min : tensor; pb_max : tensor }.
(** SelfCollisionBarrier attributes (_self_collision_barrier.py:141-164).
    [None]: attribute not assigned yet. *)
Record self_at := mkSC { sc_dmin : R; sc_bodies : list cbody; sc_excl_raw : list (cbody * cbody);
                         sc_excl : option (list (Z * Z)); sc_pairs : option (list (Z * Z)); sc_n : Z }.

(** Kind-specific attributes.  [TCustom]/[BCustom]/[CCustom]: a user subclass that
    only overrides [__call__]. *)
Inductive tkind :=
| TCom (target : tensor)
| TPos (o : objref) (target : tensor)
| TFrame (o : objref) (target : tensor)       (* jaxlie storage: wxyz_xyz, last axis 7 *)
| TJoint (j : jtask_at)
| TCustom (f : mjdata -> list R).
Inductive bkind :=
| BPos (p : pbar_at)
| BJoint (j : jbar_at)
| BSelf (s : self_at)
| BCustom (f : mjdata -> list R).
Inductive ckind := CModelEq | CCustom (f : mjdata -> list R).

Inductive ext :=
| XTask (cost : tensor) (lm : R) (k : tkind)
| XBarrier (sdg : R) (k : bkind)
| XConstraint (active hard : bool) (soft : option tensor) (k : ckind).

(** Attributes of Component (_base.py:111-120). [a_dim = -1]: not known yet. *)
Record attrs := mkA {
  a_name : string;
  a_model : option mjmodel;
  a_gain : tensor;
  a_gain_fn : R -> R;
  a_dim : Z;
  a_mask : option (list Z);
  a_mask_idxs : list Z;
  a_ext : ext }.

Definition set_a_model (a : attrs) x := mkA (a_name a) (Some x) (a_gain a) (a_gain_fn a) (a_dim a) (a_mask a) (a_mask_idxs a) (a_ext a).
Definition set_a_gain (a : attrs) x := mkA (a_name a) (a_model a) x (a_gain_fn a) (a_dim a) (a_mask a) (a_mask_idxs a) (a_ext a).
Definition set_a_dim (a : attrs) x := mkA (a_name a) (a_model a) (a_gain a) (a_gain_fn a) x (a_mask a) (a_mask_idxs a) (a_ext a).
Definition set_a_mask (a : attrs) x := mkA (a_name a) (a_model a) (a_gain a) (a_gain_fn a) (a_dim a) (Some x) (a_mask_idxs a) (a_ext a).
Definition set_a_mask_idxs (a : attrs) x := mkA (a_name a) (a_model a) (a_gain a) (a_gain_fn a) (a_dim a) (a_mask a) x (a_ext a).
Definition set_a_ext (a : attrs) x := mkA (a_name a) (a_model a) (a_gain a) (a_gain_fn a) (a_dim a) (a_mask a) (a_mask_idxs a) x.

(** ** Compiled (JAX) components *)

(** Kind-specific fields of the JAX dataclasses. *)
Inductive jtkind :=
| JTCom (target : tensor)                                          (* _com_task.py:45 *)
| JTPos (obj_id : Z) (ty : objtype) (target : tensor)              (* _obj_task.py:32-33, _obj_position_task.py:42 *)
| JTFrame (obj_id : Z) (ty : objtype) (target : tensor)            (* _obj_frame_task.py:47 *)
| JTJoint (target : tensor) (qidx : list Z)                        (* _joint_task.py:40-41 *)
| JTCustom (f : mjdata -> list R).
Inductive jbkind :=
| JBPos (obj_id : Z) (ty : objtype) (p_min p_max : tensor) (lt_idxs : list Z)  (* _obj_position_barrier.py:41-43 *)
| JBJoint (q_min q_max : tensor) (qidx : list Z)                   (* _joint_barrier.py:37-39 *)
| JBSelf (dmin_vec : list R) (pairs : list (Z * Z)) (n : Z)        (* _self_collision_barrier.py:44-46 *)
| JBCustom (f : mjdata -> list R).
Inductive jckind := JCModelEq | JCCustom (f : mjdata -> list R).
Inductive jext :=
| JTask (W : mat) (lm : R) (k : jtkind)                            (* tasks/_base.py:37-38 *)
| JBarrier (sdg : R) (k : jbkind)                                  (* barriers/_base.py:32 *)
| JConstraint (active hard : bool) (W : mat) (k : jckind).         (* constraints/_base.py:23-25 *)

(** _base.py:29-33 *)
Record jaxc := mkJ {
  j_dim : Z; j_model : mjmodel; j_gain : list R; j_gain_fn : R -> R;
  j_mask_idxs : list Z; j_ext : jext }.

(** ** Component objects and the method monad *)

(** [c_modified] is [_Component__modified]; [c_cache] is [_jax_component]
    ([None]: attribute never assigned). *)
Record comp := mkC { c_at : attrs; c_modified : bool; c_cache : option jaxc }.

Definition M (A : Type) := comp -> res A * comp.
Definition ret {A} (x : A) : M A := fun c => (Ok x, c).
Definition raise {A} (e : exn) : M A := fun c => (Err e, c).
Definition mbind {A B} (x : M A) (f : A -> M B) : M B :=
  fun c => match x c with (Ok a, c') => f a c' | (Err e, c') => (Err e, c') end.
Notation "'mdo' x <- e ; f" := (mbind e (fun x => f))
  (at level 200, x pattern, e at level 100, f at level 200, right associativity).
Definition mseq {A B} (x : M A) (y : M B) : M B := mbind x (fun _ => y).
Notation "x ;; y" := (mseq x y) (at level 199, right associativity).
(** Read attributes without writing any. *)
Definition read {A} (f : attrs -> res A) : M A := fun c => (f (c_at c), c).
(** Attribute assignment: [__setattr__] stores the value and then sets the
    modified flag (_base.py:161-171). *)
Definition seta (f : attrs -> attrs) : M unit :=
  fun c => (Ok tt, mkC (f (c_at c)) true (c_cache c)).

(** ** Properties of Component *)

(** An integer used as array size. *)
Definition zsize (d : Z) : res nat := if (d <? 0)%Z then Err ValueError else Ok (Z.to_nat d).
Definition scalar_of (t : tensor) : res R := match t_data t with [x] => Ok x | _ => Err TypeError end.

(** _base.py:286-297 *)
Definition dim (a : attrs) : res Z := if (a_dim a =? -1)%Z then Err ValueError else Ok (a_dim a).

(** _base.py:227-237 *)
Definition update_gain (g : tensor) : M unit :=
  if Nat.ltb 1 (ndim g) then raise ValueError else seta (fun a => set_a_gain a g).

(** _base.py:240-265 *)
Definition vector_gain (a : attrs) : res (list R) :=
  if (a_dim a =? -1)%Z then Err ValueError else
  match ndim (a_gain a) with
  | 0 => do d <- dim a; do n <- zsize d; do x <- scalar_of (a_gain a); Ok (vconst n x)
  | 1 => do d <- dim a;
         if negb (Z.of_nat (List.length (t_data (a_gain a))) =? d)%Z then Err ValueError
         else Ok (t_data (a_gain a))
  | _ => Err ValueError
  end.

(** _base.py:153-159 *)
Definition get_default_mask (a : attrs) : res (list Z * list Z) :=
  do d <- dim a; do n <- zsize d; Ok (repeat 1%Z n, zrange 0 d).

(** The lazy initialisation shared by [mask] and [mask_idxs]
    (_base.py:307-310 and 322-325). *)
Definition force_mask : M unit :=
  mdo om <- read (fun a => Ok (a_mask a));
  match om with
  | Some _ => ret tt
  | None =>
      mdo d <- read (fun a => Ok (a_dim a));
      if (d =? -1)%Z then raise ValueError
      else mdo p <- read get_default_mask;
           seta (fun a => set_a_mask a (fst p)) ;;
           seta (fun a => set_a_mask_idxs a (snd p))
  end.
(** _base.py:300-312 *)
Definition mask : M (list Z) :=
  force_mask ;; read (fun a => match a_mask a with Some l => Ok l | None => Err ValueError end).
(** _base.py:315-326 *)
Definition mask_idxs : M (list Z) := force_mask ;; read (fun a => Ok (a_mask_idxs a)).

(** Square matrix read from a rank-2 array. *)
Definition tmat (t : tensor) : mat :=
  match t_shape t with [r; c] => rows_of r c (t_data t) | _ => [] end.

(** The scalar/vector/matrix normalisation shared by
    Task.matrix_cost (tasks/_base.py:162-179) and
    Constraint.soft_constraint_cost (constraints/_base.py:114-133). *)
Definition cost_matrix (d : Z) (cost : tensor) : res mat :=
  match ndim cost with
  | 0 => do n <- zsize d; do x <- scalar_of cost; Ok (mscale x (eye n))
  | 1 => if negb (Z.of_nat (List.length (t_data cost)) =? d)%Z then Err ValueError
         else Ok (diag (t_data cost))
  | 2 => match t_shape cost with
         | [r; c] => if ((Z.of_nat r =? d) && (Z.of_nat c =? d))%Z then Ok (tmat cost) else Err ValueError
         | _ => Err ValueError
         end
  | _ => Err ValueError
  end.

(** tasks/_base.py:143-179 *)
Definition matrix_cost (a : attrs) : res mat :=
  if (a_dim a =? -1)%Z then Err ValueError else
  match a_ext a with
  | XTask cost _ _ => cost_matrix (a_dim a) cost
  | _ => Err AttributeError
  end.

(** constraints/_base.py:103-133 *)
Definition soft_constraint_cost (a : attrs) : res mat :=
  match a_ext a with
  | XConstraint _ _ soft _ =>
      match soft with
      | None => do d <- dim a; do n <- zsize d; Ok (mscale 100 (eye n))
      | Some t =>
          (* the property reads self.dim inside the match branches *)
          do d <- dim a; cost_matrix d t
      end
  | _ => Err AttributeError
  end.

(** _self_collision_barrier.py:289-303 *)
Definition d_min_vec (a : attrs) (dmin : R) : res (list R) :=
  if (a_dim a =? -1)%Z then Err ValueError
  else do d <- dim a; do n <- zsize d; Ok (vconst n dmin).

Definition opt {A} (e : exn) (o : option A) : res A := match o with Some x => Ok x | None => Err e end.

(** Kind-specific part of [_build_component] (_base.py:328-335): each dataclass
    field is read through the attribute of the same name.
    - ObjTask.obj_id has no check (_obj_task.py:140-146), ObjBarrier.obj_id
      raises on -1 (_obj_barrier.py:154-164);
    - qmask_idxs is an unassigned attribute before binding (AttributeError);
    - target_q/q_min/q_max raise ValueError when None. *)
Definition build_ext (a : attrs) : res jext :=
  match a_ext a with
  | XTask _ lm k =>
      do W <- matrix_cost a;
      do jk <- match k with
               | TCom t => Ok (JTCom t)
               | TPos o t => Ok (JTPos (ob_id o) (ob_type o) t)
               | TFrame o t => Ok (JTFrame (ob_id o) (ob_type o) t)
               | TJoint j => do t <- opt ValueError (jt_target j);
                             do q <- opt AttributeError (jt_qidx j); Ok (JTJoint t q)
               | TCustom f => Ok (JTCustom f)
               end;
      Ok (JTask W lm jk)
  | XBarrier sdg k =>
      do jk <- match k with
               | BPos p => if (ob_id (pb_obj p) =? -1)%Z then Err ValueError
                           else Ok (JBPos (ob_id (pb_obj p)) (ob_type (pb_obj p)) (pb_min p) (pb_max p) (pb_lt_idxs p))
               | BJoint j => do lo <- opt ValueError (jb_qmin j);
                             do hi <- opt ValueError (jb_qmax j);
                             do q <- opt AttributeError (jb_qidx j); Ok (JBJoint lo hi q)
               | BSelf s => do dv <- d_min_vec a (sc_dmin s);
                            do ps <- opt AttributeError (sc_pairs s); Ok (JBSelf dv ps (sc_n s))
               | BCustom f => Ok (JBCustom f)
               end;
      Ok (JBarrier sdg jk)
  | XConstraint act hard _ k =>
      do W <- soft_constraint_cost a;
      Ok (JConstraint act hard W (match k with CModelEq => JCModelEq | CCustom f => JCCustom f end))
  end.

(** _base.py:328-335. The fields are read in dataclass order: dim, model,
    vector_gain, gain_fn, mask_idxs, then the subclass fields. *)
Definition build_component : M jaxc :=
  mdo d <- read dim;
  mdo m <- read (fun a => opt ValueError (a_model a));   (* None excluded by jax_component's guard *)
  mdo g <- read vector_gain;
  mdo gf <- read (fun a => Ok (a_gain_fn a));
  mdo mi <- mask_idxs;
  mdo e <- read build_ext;
  ret (mkJ d m g gf mi e).

(** _base.py:337-353. Assigning [_jax_component] sets the flag, which is
    cleared right after. *)
Definition jax_component : M jaxc :=
  mdo om <- read (fun a => Ok (a_model a));
  match om with
  | None => raise ValueError
  | Some _ =>
      mdo d <- read (fun a => Ok (a_dim a));
      if (d =? -1)%Z then raise ValueError
      else fun c =>
        if c_modified c then
          match build_component c with
          | (Err e, c') => (Err e, c')
          | (Ok j, c') => (Ok j, mkC (c_at c') false (Some j))
          end
        else match c_cache c with
             | Some j => (Ok j, c)
             | None => (Err AttributeError, c)
             end
  end.

(** ** Setters of the subclasses *)

(** Does the last dimension of [t] differ from [d]? ([t.shape[-1] != d]) *)
Definition last_dim_neq (t : tensor) (d : Z) : res bool :=
  do n <- last_dim t; Ok (negb (Z.of_nat n =? d)%Z).

Definition lift {A} (r : res A) : M A := fun c => (r, c).

(** tasks/_base.py:128-140 *)
Definition update_cost (t : tensor) : M unit :=
  mdo e <- read (fun a => Ok (a_ext a));
  match e with
  | XTask _ lm k =>
      if Nat.ltb 2 (ndim t) then raise ValueError else seta (fun a => set_a_ext a (XTask t lm k))
  | _ => raise AttributeError
  end.

(** _com_task.py:148-163 *)
Definition update_target_com (t : tensor) : M unit :=
  mdo e <- read (fun a => Ok (a_ext a));
  match e with
  | XTask cost lm (TCom _) =>
      mdo d <- read (fun a => Ok (a_dim a));
      mdo bad <- lift (last_dim_neq t d);
      if bad : bool then raise ValueError else seta (fun a => set_a_ext a (XTask cost lm (TCom t)))
  | _ => raise AttributeError
  end.

(** _obj_position_task.py:112-126 *)
Definition update_target_pos (t : tensor) : M unit :=
  mdo e <- read (fun a => Ok (a_ext a));
  match e with
  | XTask cost lm (TPos o _) =>
      mdo d <- read (fun a => Ok (a_dim a));
      mdo bad <- lift (last_dim_neq t d);
      if bad : bool then raise ValueError else seta (fun a => set_a_ext a (XTask cost lm (TPos o t)))
  | _ => raise AttributeError
  end.

(** Frame target argument: an SE3 object (stored wxyz_xyz) or an array. *)
Inductive frame_arg := FSE3 (t : tensor) | FArr (t : tensor).

(** _obj_frame_task.py:166-172 on each row [x y z qw qx qy qz]:
    [quat[..., [1,2,3,0]]] gives xyzw, [SO3.from_quaternion_xyzw] stores it as
    wxyz, [SE3.from_rotation_and_translation] stores wxyz_xyz. *)
Fixpoint convert_frames (d : list R) : list R :=
  match d with
  | x :: y :: z :: w :: a :: b :: c :: r => w :: a :: b :: c :: x :: y :: z :: convert_frames r
  | _ => []
  end.

(** _obj_frame_task.py:149-175 *)
Definition update_target_frame (f : frame_arg) : M unit :=
  mdo e <- read (fun a => Ok (a_ext a));
  match e with
  | XTask cost lm (TFrame o _) =>
      match f with
      | FSE3 t => seta (fun a => set_a_ext a (XTask cost lm (TFrame o t)))
      | FArr t =>
          mdo bad <- lift (last_dim_neq t 7%Z);
          if bad : bool then raise ValueError
          else seta (fun a => set_a_ext a (XTask cost lm (TFrame o (mkT (t_shape t) (convert_frames (t_data t))))))
      end
  | _ => raise AttributeError
  end.

(** _joint_task.py:188-202 *)
Definition update_target_q (t : tensor) : M unit :=
  mdo e <- read (fun a => Ok (a_ext a));
  match e with
  | XTask cost lm (TJoint j) =>
      mdo d <- read (fun a => Ok (a_dim a));
      mdo bad <- (if (d =? -1)%Z then ret false else lift (last_dim_neq t d));
      if bad : bool then raise ValueError
      else seta (fun a => set_a_ext a (XTask cost lm (TJoint (mkJT (jt_final j) (Some t) (jt_qidx j)))))
  | _ => raise AttributeError
  end.

(** _obj_position_barrier.py:189-212 *)
Definition update_p_min (t : tensor) : M unit :=
  mdo e <- read (fun a => Ok (a_ext a));
  match e with
  | XBarrier sdg (BPos p) =>
      mdo idx <- mask_idxs;
      mdo t' <- (if Nat.eqb (ndim t) 0
                 then mdo x <- lift (scalar_of t); ret (tvec (vconst (List.length idx) x))
                 else mdo bad <- lift (last_dim_neq t (Z.of_nat (List.length idx)));
                      if bad : bool then raise ValueError else ret t);
      if negb (includes_min (pb_lt p)) then ret tt     (* warning, assignment ignored *)
      else seta (fun a => set_a_ext a (XBarrier sdg (BPos (mkPB (pb_obj p) (pb_lt p) (pb_lt_idxs p) t' (pb_max p)))))
  | _ => raise AttributeError
  end.

(** _obj_position_barrier.py:227-249 *)
Definition update_p_max (t : tensor) : M unit :=
  mdo e <- read (fun a => Ok (a_ext a));
  match e with
  | XBarrier sdg (BPos p) =>
      mdo idx <- mask_idxs;
      mdo t' <- (if Nat.eqb (ndim t) 0
                 then mdo x <- lift (scalar_of t); ret (tvec (vconst (List.length idx) x))
                 else mdo bad <- lift (last_dim_neq t (Z.of_nat (List.length idx)));
                      if bad : bool then raise ValueError else ret t);
      if negb (includes_max (pb_lt p)) then ret tt
      else seta (fun a => set_a_ext a (XBarrier sdg (BPos (mkPB (pb_obj p) (pb_lt p) (pb_lt_idxs p) (pb_min p) t'))))
  | _ => raise AttributeError
  end.

(** _joint_barrier.py:147-160 *)
Definition update_q_min (t : tensor) : M unit :=
  mdo e <- read (fun a => Ok (a_ext a));
  match e with
  | XBarrier sdg (BJoint j) =>
      mdo n <- lift (last_dim t);
      mdo d <- read dim;
      if negb (Z.of_nat n =? d / 2)%Z then raise ValueError
      else seta (fun a => set_a_ext a (XBarrier sdg (BJoint (mkJB (jb_final j) (Some t) (jb_qmax j) (jb_qidx j)))))
  | _ => raise AttributeError
  end.

(** _joint_barrier.py:185-197 *)
Definition update_q_max (t : tensor) : M unit :=
  mdo e <- read (fun a => Ok (a_ext a));
  match e with
  | XBarrier sdg (BJoint j) =>
      mdo n <- lift (last_dim t);
      mdo d <- read dim;
      if negb (Z.of_nat n =? d / 2)%Z then raise ValueError
      else seta (fun a => set_a_ext a (XBarrier sdg (BJoint (mkJB (jb_final j) (jb_qmin j) (Some t) (jb_qidx j)))))
  | _ => raise AttributeError
  end.

(** ** Model binding *)

(** [l.at[b:e].set(0)] with slice clipping. *)
Definition zero_range (b e : nat) (l : list Z) : list Z :=
  map (fun p => if (Nat.leb b (fst p) && Nat.ltb (fst p) e) then 0%Z else snd p)
      (combine (seq 0 (List.length l)) l).

(** [l.at[l.astype(bool)].set(vals)]: the non-zero positions receive [vals] in
    order (one value is broadcast, another length raises). *)
Fixpoint scatter_true (l vals : list Z) : list Z :=
  match l with
  | [] => []
  | x :: r => if (x =? 0)%Z then 0%Z :: scatter_true r vals
              else match vals with v :: vs => v :: scatter_true r vs | [] => x :: r end
  end.
Definition count_true (l : list Z) : nat := List.length (filter (fun x => negb (x =? 0)%Z) l).
Definition scatter_bool (l vals : list Z) : res (list Z) :=
  if Nat.eqb (count_true l) (List.length vals) then Ok (scatter_true l vals)
  else match vals with
       | [v] => Ok (map (fun x => if (x =? 0)%Z then 0%Z else v) l)
       | _ => Err ValueError
       end.

(** [jnp.argwhere(l).ravel()], also [tuple(i for i in range(len(l)) if l[i])]. *)
Definition argwhere (l : list Z) : list Z :=
  map (fun p => Z.of_nat (fst p)) (filter (fun p => negb (snd p =? 0)%Z) (combine (seq 0 (List.length l)) l)).

(** The loop of JointTask.update_model (_joint_task.py:127-142), identical in
    JointBarrier.update_model (_joint_barrier.py:210-226): start from all ones
    and clear the entries of free and ball joints.  Returns (qpos mask, dof mask). *)
Fixpoint clear_joints (ts : list jnttype) (qadr vadr : list nat) (qm vm : list Z) : res (list Z * list Z) :=
  match ts, qadr, vadr with
  | [], _, _ => Ok (qm, vm)
  | t :: ts', q :: qadr', v :: vadr' =>
      match t with
      | JFree => clear_joints ts' qadr' vadr' (zero_range q (q + 7) qm) (zero_range v (v + 6) vm)
      | JBall => clear_joints ts' qadr' vadr' (zero_range q (q + 4) qm) (zero_range v (v + 3) vm)
      | _ => clear_joints ts' qadr' vadr' qm vm
      end
  | _, _, _ => Err IndexError
  end.
Definition scalar_masks (m : mjmodel) : res (list Z * list Z) :=
  if Nat.ltb (List.length (m_jnt_type m)) (m_njnt m) then Err IndexError else
  clear_joints (firstn (m_njnt m) (m_jnt_type m)) (m_jnt_qposadr m) (m_jnt_dofadr m)
               (repeat 1%Z (m_nq m)) (repeat 1%Z (m_nv m)).
Definition zsum (l : list Z) : Z := fold_right Z.add 0%Z l.

(** The common head of JointTask/JointBarrier.update_model
    (_joint_task.py:125-157, _joint_barrier.py:208-239): sets _model, _mask,
    (validates and applies the user mask,) _mask_idxs; returns the qpos indices
    and the number of selected dofs. *)
Definition bind_joint_masks (m : mjmodel) (final : option (list Z)) : M (list Z * list Z) :=
  seta (fun a => set_a_model a m) ;;
  mdo qv <- lift (scalar_masks m);
  seta (fun a => set_a_mask a (snd qv)) ;;
  mdo qv' <- match final with
             | None => ret qv
             | Some f =>
                 if negb (zsum (snd qv) =? Z.of_nat (List.length f))%Z then raise ValueError
                 else mdo v' <- lift (scatter_bool (snd qv) f);
                      seta (fun a => set_a_mask a v') ;;
                      mdo q' <- lift (scatter_bool (fst qv) f);
                      ret (q', v')
             end;
  seta (fun a => set_a_mask_idxs a (argwhere (snd qv'))) ;;
  ret (argwhere (fst qv'), argwhere (snd qv')).

Definition set_jt_qidx (a : attrs) (q : list Z) : attrs :=
  match a_ext a with
  | XTask cost lm (TJoint j) => set_a_ext a (XTask cost lm (TJoint (mkJT (jt_final j) (jt_target j) (Some q))))
  | _ => a
  end.
Definition set_jb_qidx (a : attrs) (q : list Z) : attrs :=
  match a_ext a with
  | XBarrier s (BJoint j) => set_a_ext a (XBarrier s (BJoint (mkJB (jb_final j) (jb_qmin j) (jb_qmax j) (Some q))))
  | _ => a
  end.

(** _joint_task.py:114-165.  Simplification: [_qmask_idxs] is assigned just
    before [_mask_idxs] in the code, just after here; no exception can occur in
    between. *)
Definition update_model_joint_task (m : mjmodel) (j : jtask_at) : M unit :=
  mdo qv <- bind_joint_masks m (jt_final j);
  seta (fun a => set_jt_qidx a (fst qv)) ;;
  seta (fun a => set_a_dim a (Z.of_nat (List.length (snd qv)))) ;;
  match jt_target j with
  | None => update_target_q (tvec (vzero (List.length (snd qv))))
  | Some t => mdo bad <- lift (last_dim_neq t (Z.of_nat (List.length (snd qv))));
              if bad : bool then raise ValueError else ret tt
  end.

(** [jnt_range[:, k][jnt_mask]]: ranges of the hinge/slide joints
    (_joint_barrier.py:212,244,246). *)
Definition scalar_ranges (m : mjmodel) (sel : R * R -> R) : list R :=
  map (fun p => sel (snd p)) (filter (fun p => is_scalar (fst p)) (combine (m_jnt_type m) (m_jnt_range m))).

(** _joint_barrier.py:199-246 *)
Definition update_model_joint_barrier (m : mjmodel) (j : jbar_at) : M unit :=
  mdo qv <- bind_joint_masks m (jb_final j);
  seta (fun a => set_jb_qidx a (fst qv)) ;;
  seta (fun a => set_a_dim a (2 * Z.of_nat (List.length (snd qv)))%Z) ;;
  match jb_qmin j with None => update_q_min (tvec (scalar_ranges m fst)) | Some _ => ret tt end ;;
  match jb_qmax j with None => update_q_max (tvec (scalar_ranges m snd)) | Some _ => ret tt end.

Definition set_obj_id (a : attrs) (i : Z) : attrs :=
  match a_ext a with
  | XTask c l (TPos o t) => set_a_ext a (XTask c l (TPos (set_ob_id o i) t))
  | XTask c l (TFrame o t) => set_a_ext a (XTask c l (TFrame (set_ob_id o i) t))
  | XBarrier s (BPos p) =>
      set_a_ext a (XBarrier s (BPos (mkPB (set_ob_id (pb_obj p) i) (pb_lt p) (pb_lt_idxs p) (pb_min p) (pb_max p))))
  | _ => a
  end.

(** _obj_task.py:157-175 and _obj_barrier.py:175-192: the id is written first,
    then checked, then the model is bound. *)
Definition update_model_obj (m : mjmodel) (o : objref) : M unit :=
  let i := name2id m (ob_type o) (ob_name o) in
  seta (fun a => set_obj_id a i) ;;
  if (i =? -1)%Z then raise ValueError else seta (fun a => set_a_model a m).

(** *** Self collision *)

(** _collision.py:15-23 *)
Definition sorted_pair (x y : Z) : Z * Z := (Z.min x y, Z.max x y).

(** _self_collision_barrier.py:202-219 *)
Definition body2id (m : mjmodel) (b : cbody) : res Z :=
  match b with
  | CBInt i => Ok i
  | CBStr s => Ok (name2id m OBody s)
  | CBOther => Err ValueError
  end.

(** _self_collision_barrier.py:166-193 *)
Definition validate_body_pair (m : mjmodel) (b1 b2 : Z) : res bool :=
  do w1 <- np_idx (m_body_weldid m) b1;
  do w2 <- np_idx (m_body_weldid m) b2;
  do p1 <- np_idx (m_body_parentid m) w1;
  do p2 <- np_idx (m_body_parentid m) w2;
  do pw1 <- np_idx (m_body_weldid m) p1;
  do pw2 <- np_idx (m_body_weldid m) p2;
  let is_parent_child := ((w1 =? pw2) || (w2 =? pw1))%Z in
  let is_welded := (w1 =? w2)%Z in
  Ok (negb (is_parent_child || is_welded)).

(** _self_collision_barrier.py:195-200 (Python truthiness of the bit masks) *)
Definition validate_geom_pair (m : mjmodel) (g1 g2 : Z) : res bool :=
  do t1 <- np_idx (m_geom_contype m) g1;
  do f2 <- np_idx (m_geom_conaffinity m) g2;
  if negb (Z.land t1 f2 =? 0)%Z then Ok true
  else do t2 <- np_idx (m_geom_contype m) g2;
       do f1 <- np_idx (m_geom_conaffinity m) g1;
       Ok (negb (Z.land t2 f1 =? 0)%Z).

Definition zpair_eqb (p q : Z * Z) : bool := ((fst p =? fst q) && (snd p =? snd q))%Z.
Definition zpair_mem (p : Z * Z) (l : list (Z * Z)) : bool := existsb (zpair_eqb p) l.
(** Insertion into a Python set, kept here in insertion order. *)
Definition set_add (p : Z * Z) (l : list (Z * Z)) : list (Z * Z) := if zpair_mem p l then l else l ++ [p].

(** The inner double loop over geoms (_self_collision_barrier.py:257-260). *)
Fixpoint add_geoms2 (m : mjmodel) (g1 : Z) (gs2 : list Z) (acc : list (Z * Z)) : res (list (Z * Z)) :=
  match gs2 with
  | [] => Ok acc
  | g2 :: r => do v <- validate_geom_pair m g1 g2;
               add_geoms2 m g1 r (if v : bool then set_add (sorted_pair g1 g2) acc else acc)
  end.
Fixpoint add_geoms1 (m : mjmodel) (gs1 gs2 : list Z) (acc : list (Z * Z)) : res (list (Z * Z)) :=
  match gs1 with
  | [] => Ok acc
  | g1 :: r => do acc' <- add_geoms2 m g1 gs2 acc; add_geoms1 m r gs2 acc'
  end.

(** Geom ids of one body (_self_collision_barrier.py:251-255). *)
Definition body_geoms (m : mjmodel) (b : Z) : res (list Z) :=
  do s <- np_idx (m_body_geomadr m) b;
  do n <- np_idx (m_body_geomnum m) b;
  Ok (zrange s (s + n)).

(** Body of the loops over body pairs (_self_collision_barrier.py:240-260). *)
Definition add_body_pair (m : mjmodel) (excl : list (Z * Z)) (x y : cbody) (acc : list (Z * Z)) : res (list (Z * Z)) :=
  do b1 <- body2id m x;
  do b2 <- body2id m y;
  if (b1 =? b2)%Z then Ok acc
  else if zpair_mem (sorted_pair b1 b2) excl then Ok acc
  else do ok <- validate_body_pair m b1 b2;
       if negb ok then Ok acc
       else do gs1 <- body_geoms m b1;
            do gs2 <- body_geoms m b2;
            add_geoms1 m gs1 gs2 acc.
Fixpoint add_body_with (m : mjmodel) excl (x : cbody) (ys : list cbody) acc : res (list (Z * Z)) :=
  match ys with
  | [] => Ok acc
  | y :: r => do acc' <- add_body_pair m excl x y acc; add_body_with m excl x r acc'
  end.
Fixpoint add_all_bodies (m : mjmodel) excl (bs : list cbody) acc : res (list (Z * Z)) :=
  match bs with
  | [] => Ok acc
  | x :: r => do acc' <- add_body_with m excl x r acc; add_all_bodies m excl r acc'
  end.
(** _self_collision_barrier.py:221-262.  [list(set)] has an unspecified order in
    Python; the model keeps insertion order, and no theorem depends on it. *)
Definition generate_collision_pairs (m : mjmodel) (bs : list cbody) (excl : list (Z * Z)) : res (list (Z * Z)) :=
  add_all_bodies m excl bs [].

(** _self_collision_barrier.py:274-280 *)
Fixpoint exclude_set (m : mjmodel) (raw : list (cbody * cbody)) (acc : list (Z * Z)) : res (list (Z * Z)) :=
  match raw with
  | [] => Ok acc
  | (x, y) :: r => do a <- body2id m x; do b <- body2id m y; exclude_set m r (set_add (sorted_pair a b) acc)
  end.

Definition upd_self (f : self_at -> self_at) (a : attrs) : attrs :=
  match a_ext a with XBarrier s (BSelf k) => set_a_ext a (XBarrier s (BSelf (f k))) | _ => a end.
Definition self_of (a : attrs) : res self_at :=
  match a_ext a with XBarrier _ (BSelf k) => Ok k | _ => Err AttributeError end.

(** _self_collision_barrier.py:264-287 *)
Definition update_model_self (m : mjmodel) : M unit :=
  seta (fun a => set_a_model a m) ;;
  mdo s <- read self_of;
  (match sc_bodies s with
   | [] => seta (upd_self (fun k => mkSC (sc_dmin k) (map CBInt (zrange 0 (Z.of_nat (m_nbody m)))) (sc_excl_raw k) (sc_excl k) (sc_pairs k) (sc_n k)))
   | _ => ret tt
   end) ;;
  mdo ex <- lift (exclude_set m (sc_excl_raw s) []);
  seta (upd_self (fun k => mkSC (sc_dmin k) (sc_bodies k) (sc_excl_raw k) (Some ex) (sc_pairs k) (sc_n k))) ;;
  mdo s1 <- read self_of;
  mdo ps <- lift (generate_collision_pairs m (sc_bodies s1) ex);
  seta (upd_self (fun k => mkSC (sc_dmin k) (sc_bodies k) (sc_excl_raw k) (sc_excl k) (Some ps) (sc_n k))) ;;
  (if (sc_n s =? -1)%Z
   then seta (upd_self (fun k => mkSC (sc_dmin k) (sc_bodies k) (sc_excl_raw k) (sc_excl k) (sc_pairs k) (Z.of_nat (List.length ps))))
   else ret tt) ;;
  mdo s2 <- read self_of;
  seta (fun a => set_a_dim a (sc_n s2)).

(** *** Model equality constraint (_equality_constraint.py:103-129) *)
Fixpoint count_eq (ts : list eqtype) (n : nat) : res nat :=
  match ts with
  | [] => Ok n
  | EqConnect :: r => count_eq r (n + 3)
  | EqWeld :: r => count_eq r (n + 6)
  | EqJoint :: r => count_eq r (n + 1)
  | EqOther _ :: _ => Err ValueError
  end.
Definition update_model_equality (m : mjmodel) : M unit :=
  seta (fun a => set_a_model a m) ;;
  mdo n <- lift (if Nat.ltb (List.length (m_eq_type m)) (m_neq m) then Err IndexError
                 else count_eq (firstn (m_neq m) (m_eq_type m)) 0);
  seta (fun a => set_a_mask_idxs a (zrange 0 (Z.of_nat n))) ;;
  seta (fun a => set_a_dim a (Z.of_nat n)).

(** [component.model = m] / [update_model] of the concrete class. *)
Definition update_model (m : mjmodel) : M unit :=
  mdo e <- read (fun a => Ok (a_ext a));
  match e with
  | XTask _ _ (TPos o _) | XTask _ _ (TFrame o _) => update_model_obj m o
  | XBarrier _ (BPos p) => update_model_obj m (pb_obj p)
  | XTask _ _ (TJoint j) => update_model_joint_task m j
  | XBarrier _ (BJoint j) => update_model_joint_barrier m j
  | XBarrier _ (BSelf _) => update_model_self m
  | XConstraint _ _ _ CModelEq => update_model_equality m
  | _ => seta (fun a => set_a_model a m)                       (* _base.py:200-206 *)
  end.

(** ** Constructors *)

(** _base.py:122-151 *)
Definition init_component (name : string) (gain : tensor) (gain_fn : option (R -> R))
    (msk : option marr) (e : ext) : res attrs :=
  if Nat.ltb 1 (ndim gain) then Err ValueError else
  let gf := match gain_fn with Some f => f | None => fun x => x end in
  match msk with
  | None => Ok (mkA name None gain gf (-1) None [] e)
  | Some k => if negb (Nat.eqb (List.length (mk_shape k)) 1) then Err ValueError
              else Ok (mkA name None gain gf (-1) (Some (mk_data k)) (argwhere (mk_data k)) e)
  end.

Definition new_comp (a : attrs) : comp := mkC a true None.

(** tasks/_base.py:83-108 *)
Definition init_task name cost gain gain_fn lm msk (k : tkind) : res attrs :=
  do a <- init_component name gain gain_fn msk (XTask cost lm k);
  if Rlt_dec lm 0 then Err ValueError
  else if Nat.ltb 2 (ndim cost) then Err ValueError else Ok a.

(** [3 if mask is None else len(self.mask_idxs)] *)
Definition dim_or (d : nat) (msk : option marr) (a : attrs) : nat :=
  match msk with None => d | Some _ => List.length (a_mask_idxs a) end.

(** _com_task.py:115-128; [len(mask)] is the first axis. *)
Definition new_com_task name cost gain gain_fn lm (msk : option marr) : res comp :=
  do _ <- match msk with
          | None => Ok tt
          | Some k => match mk_shape k with
                      | [] => Err TypeError
                      | n :: _ => if Nat.eqb n 3 then Ok tt else Err ValueError
                      end
          end;
  do a <- init_task name cost gain gain_fn lm msk (TCom (tvec []));
  let d := dim_or 3 msk a in
  Ok (new_comp (set_a_ext (set_a_dim a (Z.of_nat d)) (XTask cost lm (TCom (tvec (vzero d)))))).

(** _obj_position_task.py:79-92 with _obj_task.py:114-128 *)
Definition new_position_task name cost gain (obj_name : string) (ty : objtype) gain_fn lm (msk : option marr) : res comp :=
  do a <- init_task name cost gain gain_fn lm msk (TPos (mkO obj_name ty (-1)) (tvec []));
  let d := dim_or 3 msk a in
  Ok (new_comp (set_a_ext (set_a_dim a (Z.of_nat d))
                 (XTask cost lm (TPos (mkO obj_name ty (-1)) (tvec (vzero d)))))).

Definition se3_identity : list R := [1%R; 0%R; 0%R; 0%R; 0%R; 0%R; 0%R].

(** _obj_frame_task.py:116-129 *)
Definition new_frame_task name cost gain (obj_name : string) (ty : objtype) gain_fn lm (msk : option marr) : res comp :=
  do a <- init_task name cost gain gain_fn lm msk (TFrame (mkO obj_name ty (-1)) (tvec se3_identity));
  Ok (new_comp (set_a_dim a (Z.of_nat (dim_or 6 msk a)))).

(** _joint_task.py:101-112 *)
Definition new_joint_task name cost gain gain_fn lm (msk : option (list Z)) : res comp :=
  do a <- init_task name cost gain gain_fn lm None (TJoint (mkJT msk None None));
  Ok (new_comp a).

(** A user-defined task that fixes its dimension at construction. *)
Definition new_custom_task name cost gain gain_fn lm (msk : option marr) (d : Z) (f : mjdata -> list R) : res comp :=
  do a <- init_task name cost gain gain_fn lm msk (TCustom f);
  Ok (new_comp (set_a_dim a d)).

(** barriers/_base.py:99-110 *)
Definition init_barrier name gain gain_fn sdg msk (k : bkind) : res attrs :=
  init_component name gain gain_fn msk (XBarrier sdg k).

(** Run a method during construction: an exception means no object. *)
Definition run_init (c : comp) (m : M unit) : res comp :=
  match m c with (Ok _, c') => Ok c' | (Err e, _) => Err e end.

(** _obj_position_barrier.py:102-155 *)
Definition new_position_barrier name gain (obj_name : string) (ty : objtype) (p_min p_max : option tensor)
    (lt : string) gain_fn sdg (msk : option marr) : res comp :=
  let k := match msk with Some k => k | None => mvec [1%Z; 1%Z; 1%Z] end in
  let o := mkO obj_name ty (-1) in
  do a <- init_barrier name gain gain_fn sdg (Some k) (BPos (mkPB o LBoth [] (tvec []) (tvec [])));
  if negb (String.eqb lt "min" || String.eqb lt "max" || String.eqb lt "both") then Err ValueError else
  do t <- from_str lt;
  let n := List.length (a_mask_idxs a) in
  let z := Z.of_nat n in
  let '(idxs, d) := match t with
                    | LMin => (zrange 0 z, z)
                    | LMax => (zrange z (2 * z), z)
                    | LBoth => (zrange 0 (2 * z), (2 * z)%Z)
                    end in
  let a1 := set_a_ext (set_a_dim a d) (XBarrier sdg (BPos (mkPB o t idxs (tvec (vzero n)) (tvec (vzero n))))) in
  do c1 <- match p_min with None => Ok (new_comp a1) | Some x => run_init (new_comp a1) (update_p_min x) end;
  match p_max with None => Ok c1 | Some x => run_init c1 (update_p_max x) end.

(** _joint_barrier.py:109-122 *)
Definition new_joint_barrier name gain gain_fn sdg (q_min q_max : option tensor) (msk : option (list Z)) : res comp :=
  do a <- init_barrier name gain gain_fn sdg None (BJoint (mkJB msk q_min q_max None));
  Ok (new_comp a).

(** _self_collision_barrier.py:148-164 *)
Definition new_self_collision name gain gain_fn sdg (d_min : R) (bodies : list cbody)
    (excl : list (cbody * cbody)) (n : Z) : res comp :=
  do a <- init_barrier name gain gain_fn sdg None (BSelf (mkSC d_min bodies excl None None n));
  Ok (new_comp a).

Definition new_custom_barrier name gain gain_fn sdg (msk : option marr) (d : Z) (f : mjdata -> list R) : res comp :=
  do a <- init_barrier name gain gain_fn sdg msk (BCustom f);
  Ok (new_comp (set_a_dim a d)).

(** constraints/_base.py:76-100 and _equality_constraint.py:74-101 *)
Definition new_model_equality name gain (hard : bool) (soft : option tensor) : res comp :=
  do a <- init_component name gain None None (XConstraint true hard soft CModelEq);
  Ok (new_comp a).
Definition new_custom_constraint name gain (msk : option marr) (hard : bool) (soft : option tensor) (d : Z)
    (f : mjdata -> list R) : res comp :=
  do a <- init_component name gain None msk (XConstraint true hard soft (CCustom f));
  Ok (new_comp (set_a_dim a d)).

(** ** Histories of operations on one component *)
Inductive cop :=
| OpGain (t : tensor) | OpModel (m : mjmodel) | OpCost (t : tensor)
| OpTargetCom (t : tensor) | OpTargetPos (t : tensor) | OpTargetFrame (f : frame_arg) | OpTargetQ (t : tensor)
| OpPMin (t : tensor) | OpPMax (t : tensor) | OpQMin (t : tensor) | OpQMax (t : tensor)
| OpAssign (f : attrs -> attrs)     (* any plain attribute assignment, e.g. lm_damping, d_min,
                                       safe_displacement_gain, active, hard_constraint, collision_bodies *)
| OpReadMask | OpReadMaskIdxs | OpReadJax.

Definition ignore {A} (x : M A) : M unit := mbind x (fun _ => ret tt).

Definition run_cop (o : cop) : M unit :=
  match o with
  | OpGain t => update_gain t
  | OpModel m => update_model m
  | OpCost t => update_cost t
  | OpTargetCom t => update_target_com t
  | OpTargetPos t => update_target_pos t
  | OpTargetFrame f => update_target_frame f
  | OpTargetQ t => update_target_q t
  | OpPMin t => update_p_min t
  | OpPMax t => update_p_max t
  | OpQMin t => update_q_min t
  | OpQMax t => update_q_max t
  | OpAssign f => seta f
  | OpReadMask => ignore mask
  | OpReadMaskIdxs => ignore mask_idxs
  | OpReadJax => ignore jax_component
  end.

(** State after an operation, whether or not it raised. *)
Definition after (o : cop) (c : comp) : comp := snd (run_cop o c).
Definition history (os : list cop) (c : comp) : comp := fold_left (fun c o => after o c) os c.
