(** What "pair of geoms that has to be checked" means. *)
From Verif Require Import Base Lin Mjx Typing Component.
Open Scope Z_scope.

(** Entry [i] of a model table ([i] is required to be an index below). *)
Definition ent (l : list Z) (i : Z) : Z := nth (Z.to_nat i) l 0.
Definition is_body (m : mjmodel) (b : Z) : Prop := 0 <= b < Z.of_nat (m_nbody m).
Definition is_geom (m : mjmodel) (g : Z) : Prop := 0 <= g < Z.of_nat (List.length (m_geom_bodyid m)).

(** Consistency of the body/geom tables of a compiled MuJoCo model. *)
Definition wf_bodies (m : mjmodel) : Prop :=
  List.length (m_body_weldid m) = m_nbody m /\ List.length (m_body_parentid m) = m_nbody m /\
  List.length (m_body_geomadr m) = m_nbody m /\ List.length (m_body_geomnum m) = m_nbody m /\
  List.length (m_geom_contype m) = List.length (m_geom_bodyid m) /\
  List.length (m_geom_conaffinity m) = List.length (m_geom_bodyid m) /\
  (forall b, is_body m b -> is_body m (ent (m_body_weldid m) b) /\ is_body m (ent (m_body_parentid m) b)) /\
  (forall b g, is_body m b ->
     (ent (m_body_geomadr m) b <= g < ent (m_body_geomadr m) b + ent (m_body_geomnum m) b <->
      is_geom m g /\ ent (m_geom_bodyid m) g = b)).

Definition weld (m : mjmodel) (b : Z) := ent (m_body_weldid m) b.
Definition parent (m : mjmodel) (b : Z) := ent (m_body_parentid m) b.

(** Not one rigid body and not parent and child, both up to welds. *)
Definition may_collide (m : mjmodel) (b1 b2 : Z) : Prop :=
  weld m b1 <> weld m b2 /\
  weld m b1 <> weld m (parent m (weld m b2)) /\
  weld m b2 <> weld m (parent m (weld m b1)).

(** MuJoCo's contact filter. *)
Definition compatible (m : mjmodel) (g1 g2 : Z) : Prop :=
  Z.land (ent (m_geom_contype m) g1) (ent (m_geom_conaffinity m) g2) <> 0 \/
  Z.land (ent (m_geom_contype m) g2) (ent (m_geom_conaffinity m) g1) <> 0.

(** [(g1, g2)] has to be checked when the bodies [ids] are listed and the body
    pairs [excl] are excluded (in either order). *)
Definition to_check (m : mjmodel) (ids : list Z) (excl : list (Z * Z)) (g1 g2 : Z) : Prop :=
  exists b1 b2, In b1 ids /\ In b2 ids /\ b1 <> b2 /\
    ~ In (b1, b2) excl /\ ~ In (b2, b1) excl /\ may_collide m b1 b2 /\
    is_geom m g1 /\ ent (m_geom_bodyid m) g1 = b1 /\
    is_geom m g2 /\ ent (m_geom_bodyid m) g2 = b2 /\ compatible m g1 g2.

(** Body references written by the user, resolved against the model. *)
Inductive refers (m : mjmodel) : cbody -> Z -> Prop :=
| by_id i : is_body m i -> refers m (CBInt i) i
| by_name s i : In (OBody, s, i) (m_names m) -> is_body m i -> refers m (CBStr s) i.

(** The geom pairs a bound self-collision barrier checks. *)
Definition checks (c : comp) (ps : list (Z * Z)) : Prop :=
  exists sdg s, a_ext (c_at c) = XBarrier sdg (BSelf s) /\ sc_pairs s = Some ps.
(** Excluded pairs, each member resolved. *)
Definition refers2 (m : mjmodel) (x : cbody * cbody) (b : Z * Z) : Prop :=
  refers m (fst x) (fst b) /\ refers m (snd x) (snd b).
(** [ps] lists, each once, exactly the pairs to check, smaller geom id first. *)
Definition checks_exactly (m : mjmodel) (ids : list Z) (excl : list (Z * Z)) (ps : list (Z * Z)) : Prop :=
  NoDup ps /\ forall g1 g2, In (g1, g2) ps <-> g1 < g2 /\ to_check m ids excl g1 g2.
(** All body ids of the model. *)
Definition all_bodies (m : mjmodel) : list Z := map Z.of_nat (seq 0 (m_nbody m)).
(** An API call that does not bind a model. *)
Definition no_bind (o : cop) : Prop := match o with OpAssign _ | OpModel _ => False | _ => True end.
(** The same excluded pairs, in any order. *)
Definition same_excl (ex ex' : list (Z * Z)) : Prop :=
  forall a b, (In (a, b) ex \/ In (b, a) ex) <-> (In (a, b) ex' \/ In (b, a) ex').
