(** The compiled (JAX) components: [__call__] and [compute_jacobian]. *)
From Verif Require Import Base Lin Mjx Typing Component Rot Conf FrameJac Collide.
Open Scope R_scope.

(** ** External libraries.  [l_eps]: jaxlie's Taylor threshold; [l_make_data],
    [l_kinematics], [l_com_pos], [l_make_constraint]: the mjx functions of these
    names; [l_jacrev f x]: reverse-mode Jacobian of [f] at [x] (jax.jacrev and
    jax.jacobian); [l_coll]: the mjx collision functions.  They are arguments of
    the model; what a theorem needs to know about them is in its hypotheses. *)
Record lib := mkL {
  l_eps : R;
  l_make_data : mjmodel -> mjdata;
  l_kinematics : mjmodel -> mjdata -> mjdata;
  l_com_pos : mjmodel -> mjdata -> mjdata;
  l_make_constraint : mjmodel -> mjdata -> mjdata;
  l_jacrev : (list R -> res (list R)) -> list R -> res mat;
  l_coll : colltab }.

Definition set_qpos (d : mjdata) (q : list R) : mjdata :=            (* data.replace(qpos=q) *)
  {| d_qpos := q; d_xpos := d_xpos d; d_xmat := d_xmat d; d_xquat := d_xquat d; d_xipos := d_xipos d;
     d_geom_xpos := d_geom_xpos d; d_geom_xmat := d_geom_xmat d; d_site_xpos := d_site_xpos d;
     d_site_xmat := d_site_xmat d; d_subtree_com := d_subtree_com d; d_cdof := d_cdof d;
     d_efc_pos := d_efc_pos d; d_efc_is_equality := d_efc_is_equality d; d_efc_J := d_efc_J d |}.
Definition set_subtree_com (d : mjdata) (c : list (list R)) : mjdata :=   (* data.replace(subtree_com=c) *)
  {| d_qpos := d_qpos d; d_xpos := d_xpos d; d_xmat := d_xmat d; d_xquat := d_xquat d; d_xipos := d_xipos d;
     d_geom_xpos := d_geom_xpos d; d_geom_xmat := d_geom_xmat d; d_site_xpos := d_site_xpos d;
     d_site_xmat := d_site_xmat d; d_subtree_com := c; d_cdof := d_cdof d;
     d_efc_pos := d_efc_pos d; d_efc_is_equality := d_efc_is_equality d; d_efc_J := d_efc_J d |}.
(** [mjx.kinematics(model, mjx.make_data(model).replace(qpos=q))] *)
Definition kin (L : lib) (m : mjmodel) (q : list R) : mjdata := l_kinematics L m (set_qpos (l_make_data L m) q).
(** configuration/_model.py:8-22 *)
Definition update (L : lib) (m : mjmodel) (q : list R) : mjdata :=
  l_make_constraint L m (l_com_pos L m (kin L m q)).

(** A 1-d array operand; a 0-d one broadcasts like one of length 1.  Arrays of
    higher rank (batched targets, meant for vmap) are not modelled here. *)
Definition vec_of (t : tensor) : res (list R) :=
  match ndim t with 0%nat | 1%nat => Ok (t_data t) | _ => Err TypeError end.

(** ** get_pos / get_rotation / get_frame: tasks/_obj_task.py:35-78 and
    barriers/_obj_barrier.py:42-85 (identical code) *)
Definition get_pos (d : mjdata) (obj_id : Z) (ty : objtype) : res (list R) :=
  match ty with
  | OGeom => jx_idx (d_geom_xpos d) obj_id
  | OSite => jx_idx (d_site_xpos d) obj_id
  | _ => jx_idx (d_xpos d) obj_id
  end.
Definition get_rotation (d : mjdata) (obj_id : Z) (ty : objtype) : res quat :=
  do M <- object_mat d obj_id ty; Ok (from_matrix M).
Definition get_frame (d : mjdata) (obj_id : Z) (ty : objtype) : res se3 :=
  do r <- get_rotation d obj_id ty; do p <- get_pos d obj_id ty; do p' <- v3_of p; Ok (mkS r p').

(** ** Values *)

(** tasks/_com_task.py:48-62 *)
Definition call_com (m : mjmodel) (idx : list Z) (target : tensor) (d : mjdata) : res (list R) :=
  do root <- np_idx (m_body_rootid m) 0;
  do com <- jx_idx (d_subtree_com d) root;
  do x <- jx_gather com idx; do t <- vec_of target; bc2 Rminus x t.
(** tasks/_obj_position_task.py:44-57 *)
Definition call_pos (idx : list Z) (obj_id : Z) (ty : objtype) (target : tensor) (d : mjdata) : res (list R) :=
  do p <- get_pos d obj_id ty; do x <- jx_gather p idx; do t <- vec_of target; bc2 Rminus x t.
(** tasks/_obj_frame_task.py:50-66 *)
Definition call_frame (L : lib) (idx : list Z) (obj_id : Z) (ty : objtype) (target : tensor) (d : mjdata) : res (list R) :=
  do f <- get_frame d obj_id ty; do tl <- vec_of target; do t <- se3_of tl;
  jx_gather (se3_log (l_eps L) (se3_mul (se3_inv f) t)) idx.
(** tasks/_joint_task.py:43-59 *)
Definition call_joint (target : tensor) (qidx : list Z) (d : mjdata) : res (list R) :=
  do x <- jx_gather (d_qpos d) qidx; do t <- vec_of target; bc2 Rminus x t.
(** barriers/_obj_position_barrier.py:46-65 *)
Definition call_pbar (idx : list Z) (obj_id : Z) (ty : objtype) (lo hi : tensor) (lt_idxs : list Z) (d : mjdata) : res (list R) :=
  do p <- get_pos d obj_id ty; do x <- jx_gather p idx;
  do l <- vec_of lo; do h <- vec_of hi;
  do a <- bc2 Rminus x l; do b <- bc2 Rminus h x;
  jx_gather (a ++ b) lt_idxs.
(** barriers/_joint_barrier.py:41-59 *)
Definition call_jbar (lo hi : tensor) (qidx : list Z) (d : mjdata) : res (list R) :=
  do x <- jx_gather (d_qpos d) qidx;
  do l <- vec_of lo; do h <- vec_of hi;
  do a <- bc2 Rminus x l; do b <- bc2 Rminus h x;
  Ok (a ++ b).

(** [jax.lax.top_k(-dists, n)]: the indices of the [n] smallest distances in
    increasing order, ties by smaller index; ValueError unless 0 <= n <= length. *)
Fixpoint insert_by (d : list R) (i : nat) (l : list nat) : list nat :=
  match l with
  | [] => [i]
  | j :: r => if Rle_dec (nth i d 0) (nth j d 0) then i :: l else j :: insert_by d i r
  end.
Definition argsort (d : list R) : list nat := fold_right (insert_by d) [] (seq 0 (List.length d)).
Definition smallest (d : list R) (n : Z) : res (list nat) :=
  if ((n <? 0) || (Z.of_nat (List.length d) <? n))%Z then Err ValueError
  else Ok (firstn (Z.to_nat n) (argsort d)).
(** barriers/_self_collision_barrier.py:49-66 *)
Definition call_self (L : lib) (m : mjmodel) (dmin : list R) (pairs : list (Z * Z)) (n : Z) (d : mjdata) : res (list R) :=
  do cs <- compute_collision_pairs (l_coll L) m d pairs;
  do idx <- smallest (cs_dist cs) n;
  bc2 Rminus (map (fun i => nth i (cs_dist cs) 0) idx) dmin.

(** Boolean-mask indexing [a[flags]]: the lengths must agree. *)
Definition bool_rows {A} (a : list A) (flags : list bool) : res (list A) :=
  if Nat.eqb (List.length a) (List.length flags) then Ok (map fst (filter snd (combine a flags))) else Err IndexError.
(** constraints/_equality_constraint.py:28-38 *)
Definition call_eq (idx : list Z) (d : mjdata) : res (list R) :=
  do e <- bool_rows (d_efc_pos d) (d_efc_is_equality d); jx_gather e idx.

Definition call (L : lib) (j : jaxc) (d : mjdata) : res (list R) :=
  match j_ext j with
  | JTask _ _ (JTCom t) => call_com (j_model j) (j_mask_idxs j) t d
  | JTask _ _ (JTPos o ty t) => call_pos (j_mask_idxs j) o ty t d
  | JTask _ _ (JTFrame o ty t) => call_frame L (j_mask_idxs j) o ty t d
  | JTask _ _ (JTJoint t q) => call_joint t q d
  | JBarrier _ (JBPos o ty lo hi li) => call_pbar (j_mask_idxs j) o ty lo hi li d
  | JBarrier _ (JBJoint lo hi q) => call_jbar lo hi q d
  | JBarrier _ (JBSelf dv ps n) => call_self L (j_model j) dv ps n d
  | JConstraint _ _ _ JCModelEq => call_eq (j_mask_idxs j) d
  | JTask _ _ (JTCustom f) | JBarrier _ (JBCustom f) | JConstraint _ _ _ (JCCustom f) => Ok (f d)
  end.

(** ** Jacobians *)

(** [if nq != nv: jac = jac @ jac_dq2v(model, qpos)]: shapes must match. *)
Definition to_velocity (m : mjmodel) (d : mjdata) (J : mat) : res mat :=
  if Nat.eqb (m_nq m) (m_nv m) then Ok J
  else do E <- jac_dq2v m (d_qpos d);
       if is_matb (List.length J) (m_nq m) J then Ok (mm (m_nv m) J E) else Err TypeError.
(** components/_base.py:58-90 *)
Definition jac_auto (L : lib) (j : jaxc) (d : mjdata) : res mat :=
  do J <- l_jacrev L (fun q => call L j (kin L (j_model j) q)) (d_qpos d);
  to_velocity (j_model j) d J.

(** tasks/_com_task.py:67-85: subtree centres of mass from kinematics only. *)
Definition mjMINVAL : R := / 1000000000000000.
Definition com_add (a b : v3 * R) : v3 * R := (v3_add (fst a) (fst b), snd a + snd b).
Definition subtree_coms (m : mjmodel) (xipos : list v3) : list v3 :=
  let s := body_tree_sum com_add m (map (fun p => (v3_scale (snd p) (fst p), snd p)) (combine xipos (m_body_mass m))) in
  map (fun p => let '(x, (pos, mass)) := p in
         if Rlt_dec mass mjMINVAL then x else v3_scale (/ Rmax mass mjMINVAL) pos) (combine xipos s).
Definition com_update (L : lib) (m : mjmodel) (q : list R) : res mjdata :=
  let d := kin L m q in
  do xs <- mapM v3_of (d_xipos d);
  if negb (Nat.eqb (List.length xs) (List.length (m_body_mass m))) then Err TypeError
  else Ok (set_subtree_com d (map v3_list (subtree_coms m xs))).
(** tasks/_com_task.py:65-94 *)
Definition jac_com (L : lib) (j : jaxc) (d : mjdata) : res mat :=
  do J <- l_jacrev L (fun q => do d' <- com_update L (j_model j) q; call L j d') (d_qpos d);
  to_velocity (j_model j) d J.

(** [zeros((r, n)).at[arange(r), idx].set(1)]: negative indices wrap, out-of-range
    writes are dropped; the index arrays must have the same length (or broadcast). *)
Definition sel_row (n : nat) (i : Z) : list R :=
  let k := if (i <? 0)%Z then (i + Z.of_nat n)%Z else i in
  if ((k <? 0) || (Z.of_nat n <=? k))%Z then vzero n else unit_row n (Z.to_nat k).
Definition sel_matrix (r : Z) (n : nat) (idx : list Z) : res mat :=
  do k <- zsize r;
  if Nat.eqb (List.length idx) k then Ok (map (sel_row n) idx)
  else if Nat.eqb k 1 then                                   (* arange(1) broadcasts *)
    Ok [map (fun c => if existsb (fun i => match nth_error (sel_row n i) c with
                                           | Some x => if Req_EM_T x 1 then true else false
                                           | None => false end) idx then 1 else 0) (seq 0 n)]
  else match idx with
       | [i] => Ok (repeat (sel_row n i) k)
       | _ => Err ValueError
       end.
(** tasks/_joint_task.py:61-78 *)
Definition jac_joint (j : jaxc) : res mat := sel_matrix (j_dim j) (m_nv (j_model j)) (j_mask_idxs j).
(** barriers/_joint_barrier.py:61-77 *)
Definition jac_jbar (j : jaxc) : res mat :=
  do C <- sel_matrix (j_dim j / 2) (m_nv (j_model j)) (j_mask_idxs j); Ok (C ++ mneg C).

(** tasks/_obj_frame_task.py:69-94 *)
Definition jac_frame (L : lib) (j : jaxc) (obj_id : Z) (ty : objtype) (target : tensor) (d : mjdata) : res mat :=
  do tl <- vec_of target; do t <- se3_of tl; do f <- get_frame d obj_id ty;
  let T_bt := se3_mul (se3_inv t) (se3_inv f) in
  do F <- get_frame_jacobian_local (j_model j) d obj_id ty;
  do jlog <- l_jacrev L (fun tau => do e <- se3_exp (l_eps L) tau; Ok (se3_log (l_eps L) (se3_mul T_bt e))) (vzero 6);
  let nv := List.length F in
  jx_gather (mm nv (mneg jlog) (tr 6 F)) (j_mask_idxs j).

(** barriers/_self_collision_barrier.py:68-121.  [col_bodies] is indexed by the
    position of the contact in the list of contacts; without any pair the arrays
    are one-dimensional and indexing them raises. *)
Definition jac_self_row (m : mjmodel) (d : mjdata) (dist : R) (p n : v3) (b1 b2 : Z) : res (list R) :=
  let p1 := v3_sub p (v3_scale (dist / 2) n) in
  let p2 := v3_add p (v3_scale (dist / 2) n) in
  do r1 <- point_rows m d p1 b1; do r2 <- point_rows m d p2 b2;
  Ok (map (fun q => v3_dot n (v3_sub (fst (snd q)) (fst (fst q)))) (combine r1 r2)).
Definition jac_self (L : lib) (m : mjmodel) (pairs : list (Z * Z)) (n : Z) (d : mjdata) : res mat :=
  do cs <- compute_collision_pairs (l_coll L) m d pairs;
  do idx <- smallest (cs_dist cs) n;
  do bodies <- mapM (fun p => do b1 <- np_idx (m_geom_bodyid m) (fst p); do b2 <- np_idx (m_geom_bodyid m) (snd p); Ok (b1, b2)) pairs;
  match pairs with
  | [] => Err IndexError
  | _ =>
      mapM (fun i =>
        do dist <- jx_idx (cs_dist cs) (Z.of_nat i);
        do p <- jx_idx (cs_pos cs) (Z.of_nat i);
        do fr <- jx_idx (cs_frame cs) (Z.of_nat i);
        do b <- jx_idx bodies (Z.of_nat i);
        jac_self_row m d dist p (mkV (m00 fr) (m01 fr) (m02 fr)) (fst b) (snd b)) idx
  end.

(** constraints/_equality_constraint.py:40-50 *)
Definition jac_eq (j : jaxc) (d : mjdata) : res mat :=
  do e <- bool_rows (d_efc_J d) (d_efc_is_equality d); jx_gather e (j_mask_idxs j).

Definition jacobian (L : lib) (j : jaxc) (d : mjdata) : res mat :=
  match j_ext j with
  | JTask _ _ (JTCom _) => jac_com L j d
  | JTask _ _ (JTFrame o ty t) => jac_frame L j o ty t d
  | JTask _ _ (JTJoint _ _) => jac_joint j
  | JBarrier _ (JBJoint _ _ _) => jac_jbar j
  | JBarrier _ (JBSelf _ ps n) => jac_self L (j_model j) ps n d
  | JConstraint _ _ _ JCModelEq => jac_eq j d
  | _ => jac_auto L j d
  end.

(** barriers/_base.py:46-64 *)
Definition safe_displacement (j : jaxc) : list R := vzero (m_nv (j_model j)).
