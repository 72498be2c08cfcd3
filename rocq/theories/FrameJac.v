(** mjinx/configuration/_model.py: object Jacobians, and the body-tree sums they
    use (mjx._src.scan.body_tree with reverse=True; mjx._src.support.jac). *)
From Verif Require Import Base Lin Mjx Rot.
Open Scope R_scope.

(** ** mjx scan.body_tree(..., reverse=True) for additive functions: every body
    receives the sum of its children's results.  Bodies are processed from the
    last to the first; body 0 is its own parent and is not propagated. *)
Definition upd {A} (l : list A) (i : nat) (f : A -> A) : list A :=
  map (fun p => if Nat.eqb (fst p) i then f (snd p) else snd p) (combine (seq 0 (List.length l)) l).
Fixpoint body_scan {A} (add : A -> A -> A) (parent : list Z) (k : nat) (acc : list A) : list A :=
  match k with
  | O => acc
  | S O => acc
  | S k' =>
      let b := k' in
      body_scan add parent k'
        (match nth_error acc b, nth_error parent b with
         | Some x, Some p => upd acc (Z.to_nat p) (fun y => add y x)
         | _, _ => acc
         end)
  end.
Definition body_tree_sum {A} (add : A -> A -> A) (m : mjmodel) (xs : list A) : list A :=
  body_scan add (m_body_parentid m) (List.length xs) xs.

(** _model.py:73-77: one for each dof of [body] or an ancestor of it. *)
Definition body_mask (m : mjmodel) (body : Z) : list Z :=
  body_tree_sum Z.add m (map (fun b => if (Z.of_nat b =? body)%Z then 1%Z else 0%Z) (seq 0 (m_nbody m))).
Definition dof_mask (m : mjmodel) (body : Z) : res (list bool) :=
  do l <- jx_gather (body_mask m body) (m_dof_bodyid m); Ok (map (fun x => (0 <? x)%Z) l).

(** _model.py:60-71, 133-148: body and position (and rotation) of the object. *)
Definition object_pos (d : mjdata) (obj_id : Z) (ty : objtype) : res v3 :=
  match ty with
  | OGeom => do l <- jx_idx (d_geom_xpos d) obj_id; v3_of l
  | OSite => do l <- jx_idx (d_site_xpos d) obj_id; v3_of l
  | _ => do l <- jx_idx (d_xpos d) obj_id; v3_of l
  end.
Definition object_mat (d : mjdata) (obj_id : Z) (ty : objtype) : res m3 :=
  match ty with
  | OGeom => do l <- jx_idx (d_geom_xmat d) obj_id; m3_of l
  | OSite => do l <- jx_idx (d_site_xmat d) obj_id; m3_of l
  | _ => do l <- jx_idx (d_xmat d) obj_id; m3_of l
  end.
Definition object_body (m : mjmodel) (obj_id : Z) (ty : objtype) : res Z :=
  match ty with
  | OGeom => np_idx (m_geom_bodyid m) obj_id
  | OSite => np_idx (m_site_bodyid m) obj_id
  | _ => Ok obj_id
  end.

(** A row of [data.cdof]: rotational part first, then translational. *)
Definition cdof_of (l : list R) : res (v3 * v3) :=
  match l with [a; b; c; x; y; z] => Ok (mkV a b c, mkV x y z) | _ => Err TypeError end.
Definition gate (b : bool) (v : v3) : v3 := if b then v else v3_zero.   (* multiply by the mask *)

(** Offset from the centre of mass of the tree the body belongs to (_model.py:80, 154). *)
Definition offset_of (m : mjmodel) (d : mjdata) (p : v3) (body : Z) : res v3 :=
  do root <- jx_idx (m_body_rootid m) body;
  do l <- jx_idx (d_subtree_com d) root; do c <- v3_of l; Ok (v3_sub p c).

(** Rows (linear, angular) of the world-aligned Jacobian of a point [p] moving
    with [body]: _model.py:82-86; the same code is mjx._src.support.jac. *)
Definition point_rows (m : mjmodel) (d : mjdata) (p : v3) (body : Z) : res (list (v3 * v3)) :=
  do mk <- dof_mask m body;
  do off <- offset_of m d p body;
  do cd <- mapM cdof_of (d_cdof d);
  if negb (Nat.eqb (List.length cd) (List.length mk)) then Err TypeError
  else Ok (map (fun r => let '((a, l), b) := r in (gate b (v3_add l (cross a off)), gate b a)) (combine cd mk)).

(** _model.py:25-90.  The result has one row per dof, columns linear then angular. *)
Definition get_frame_jacobian_world_aligned (m : mjmodel) (d : mjdata) (obj_id : Z) (ty : objtype) : res mat :=
  do b <- object_body m obj_id ty; do p <- object_pos d obj_id ty;
  do rows <- point_rows m d p b;
  Ok (map (fun r => v3_list (fst r) ++ v3_list (snd r)) rows).

(** _model.py:93-157 *)
Definition get_frame_jacobian_local (m : mjmodel) (d : mjdata) (obj_id : Z) (ty : objtype) : res mat :=
  do b <- object_body m obj_id ty; do p <- object_pos d obj_id ty; do M <- object_mat d obj_id ty;
  do mk <- dof_mask m b;
  do off <- offset_of m d p b;
  do cd <- mapM cdof_of (d_cdof d);
  let Ri := m3_tr M in
  if negb (Nat.eqb (List.length cd) (List.length mk)) then Err TypeError
  else Ok (map (fun r => let '((a, l), k) := r in
                 v3_list (gate k (m3_app Ri (v3_add l (cross a off)))) ++ v3_list (gate k (m3_app Ri a)))
               (combine cd mk)).

(** _model.py:236-238, _collision.py:189-213 *)
Definition geom_point_jacobian (m : mjmodel) (d : mjdata) (p : v3) (body : Z) : res mat :=
  do rows <- point_rows m d p body;
  Ok (map (fun r => v3_list (fst r) ++ v3_list (snd r)) rows).
