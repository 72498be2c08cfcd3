(** mjinx/configuration/_collision.py: grouping of geom pairs and contacts. *)
From Verif Require Import Base Lin Mjx Rot FrameJac.
Open Scope R_scope.

(** mjx FunctionKey restricted to the fields set here. *)
Record fkey := mkK { k_types : Z * Z; k_data : Z * Z; k_condim : Z }.
Definition fkey_eqb (a b : fkey) : bool :=
  ((fst (k_types a) =? fst (k_types b)) && (snd (k_types a) =? snd (k_types b)) &&
   (fst (k_data a) =? fst (k_data b)) && (snd (k_data a) =? snd (k_data b)) &&
   (k_condim a =? k_condim b))%Z.

(** One contact as returned by a collision function: distance, midpoint, and the
    contact frame, whose first row is the normal from the first to the second geom. *)
Record contact := mkCt { ct_dist : R; ct_pos : v3; ct_frame : m3 }.
Definition ct_normal (c : contact) : v3 := mkV (m00 (ct_frame c)) (m01 (ct_frame c)) (m02 (ct_frame c)).

(** The table of mjx collision functions (_COLLISION_FUNC): for a pair of geom
    types, the number of contacts [ncon] and the function, which handles each
    geom pair of a group on its own and lists the contacts pair after pair. *)
Definition colltab := Z * Z -> option (nat * (mjmodel -> mjdata -> fkey -> Z * Z -> list contact)).
(** Collision functions return [ncon] contacts per pair. *)
Definition colltab_ok (T : colltab) : Prop :=
  forall ty n f m d k p, T ty = Some (n, f) -> List.length (f m d k p) = n.

(** _collision.py:45-56 and 162-173: swap so that the smaller type comes first,
    and the key of the pair.  Model arrays are numpy arrays. *)
Definition ordered_pair (m : mjmodel) (p : Z * Z) : res (Z * Z) :=
  do t1 <- np_idx (m_geom_type m) (fst p); do t2 <- np_idx (m_geom_type m) (snd p);
  Ok (if (t2 <? t1)%Z then (snd p, fst p) else p).
Definition pair_key (m : mjmodel) (p : Z * Z) : res fkey :=
  let '(g1, g2) := p in
  do t1 <- np_idx (m_geom_type m) g1; do t2 <- np_idx (m_geom_type m) g2;
  do d1 <- np_idx (m_geom_dataid m) g1; do d2 <- np_idx (m_geom_dataid m) g2;
  do p1 <- np_idx (m_geom_priority m) g1; do p2 <- np_idx (m_geom_priority m) g2;
  do c1 <- np_idx (m_geom_condim m) g1; do c2 <- np_idx (m_geom_condim m) g2;
  let cd := if (p2 <? p1)%Z then c1 else if (p1 <? p2)%Z then c2 else Z.max c1 c2 in
  Ok (mkK (t1, t2) (d1, d2) cd).

(** [dict.setdefault(key, []).append(x)] on an insertion-ordered dict. *)
Fixpoint dict_append {K A} (eqb : K -> K -> bool) (k : K) (x : A) (d : list (K * list A)) : list (K * list A) :=
  match d with
  | [] => [(k, [x])]
  | (k', l) :: r => if eqb k k' then (k', l ++ [x]) :: r else (k', l) :: dict_append eqb k x r
  end.

(** _collision.py:26-78 *)
Fixpoint geom_groups_from (m : mjmodel) (ps : list (Z * Z)) (d : list (fkey * list (Z * Z))) : res (list (fkey * list (Z * Z))) :=
  match ps with
  | [] => Ok d
  | p :: r => do p' <- ordered_pair m p; do k <- pair_key m p'; geom_groups_from m r (dict_append fkey_eqb k p' d)
  end.
Definition geom_groups (m : mjmodel) (ps : list (Z * Z)) : res (list (fkey * list (Z * Z))) := geom_groups_from m ps [].

(** The arrays of a SimplifiedContact (typing.py:35-39), as separate arrays. *)
Record contacts := mkCs { cs_geom : list (Z * Z); cs_dist : list R; cs_pos : list v3; cs_frame : list m3 }.
Definition no_contacts : contacts := mkCs [] [] [] [].

(** _collision.py:111-124: run the collision function of a group; the geom ids
    are repeated [ncon] times when [ncon > 1]. *)
Definition run_group (T : colltab) (m : mjmodel) (d : mjdata) (g : fkey * list (Z * Z)) : res (Z * contacts) :=
  let '(k, geoms) := g in
  match T (k_types k) with
  | None => Err KeyError
  | Some (ncon, f) =>
      let cs := flat_map (f m d k) geoms in
      let gs := if Nat.ltb 1 ncon then flat_map (fun p => repeat p ncon) geoms else geoms in
      Ok (k_condim k, mkCs gs (map ct_dist cs) (map ct_pos cs) (map ct_frame cs))
  end.

(** _collision.py:126-134: collect by condim, in increasing order, and concatenate. *)
Fixpoint zinsert (x : Z) (l : list Z) : list Z :=
  match l with [] => [x] | y :: r => if (x <=? y)%Z then x :: l else y :: zinsert x r end.
Definition zsort (l : list Z) : list Z := fold_right zinsert [] l.
Definition by_condim (gs : list (Z * contacts)) : list (Z * list contacts) :=
  fold_left (fun d g => dict_append Z.eqb (fst g) (snd g) d) gs [].
Fixpoint zassoc {A} (k : Z) (l : list (Z * list A)) : list A :=
  match l with [] => [] | (k', v) :: r => if (k =? k')%Z then v else zassoc k r end.
Definition cat_contacts (l : list contacts) : contacts :=
  mkCs (flat_map cs_geom l) (flat_map cs_dist l) (flat_map cs_pos l) (flat_map cs_frame l).

(** _collision.py:81-138 *)
Definition compute_collision_pairs (T : colltab) (m : mjmodel) (d : mjdata) (ps : list (Z * Z)) : res contacts :=
  match ps with
  | [] => Ok no_contacts
  | _ =>
      do groups <- geom_groups m ps;
      do cs <- mapM (run_group T m d) groups;
      let cg := by_condim cs in
      Ok (cat_contacts (flat_map (fun k => zassoc k cg) (zsort (map fst cg))))
  end.

(** _collision.py:141-186.  [min] of an empty array raises ValueError; height
    fields (type 1) are refused; [np.vstack] of an empty list raises. *)
Definition list_min (l : list R) : res R :=
  match l with [] => Err ValueError | x :: r => Ok (fold_left Rmin r x) end.
Definition mjGEOM_HFIELD : Z := 1.
Definition distance_of (T : colltab) (m : mjmodel) (d : mjdata) (p : Z * Z) : res (R * list v3 * list m3) :=
  do p' <- ordered_pair m p; do k <- pair_key m p';
  if (fst (k_types k) =? mjGEOM_HFIELD)%Z then Err NotImplementedError
  else match T (k_types k) with
  | None => Err KeyError
  | Some (_, f) =>
      let cs := f m d k p' in
      do x <- list_min (map ct_dist cs);
      Ok (x, map ct_pos cs, map ct_frame cs)
  end.
Definition get_distance (T : colltab) (m : mjmodel) (d : mjdata) (ps : list (Z * Z)) : res (list R * list v3 * list m3) :=
  do rs <- mapM (distance_of T m d) ps;
  match rs with
  | [] => Err ValueError
  | _ => Ok (map (fun r => fst (fst r)) rs, flat_map (fun r => snd (fst r)) rs, flat_map snd rs)
  end.
