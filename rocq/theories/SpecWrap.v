(** What a body reference that is no body of the model stands for. *)
From Verif Require Import Base Lin Mjx Typing Component SpecComponent SpecCollision.
Open Scope Z_scope.

(** The number a body reference is turned into: an integer is itself, a name is
    the id of the body it names, and an unknown name is -1. *)
Inductive number (m : mjmodel) : cbody -> Z -> Prop :=
| int_number i : number m (CBInt i) i
| name_number s i : has_object m OBody s i -> number m (CBStr s) i
| unknown_number s : (forall i, ~ has_object m OBody s i) -> number m (CBStr s) (-1).
Definition number2 (m : mjmodel) (x : cbody * cbody) (z : Z * Z) : Prop :=
  number m (fst x) (fst z) /\ number m (snd x) (snd z).

(** The body a number picks: negative numbers count from the end. *)
Definition picks (m : mjmodel) (z b : Z) : Prop :=
  is_body m b /\ (z = b \/ z = b - Z.of_nat (m_nbody m)).

(** The pairs checked for the numbers [zs] when the pairs of numbers [ex] are
    excluded: exclusion compares numbers, everything else compares bodies. *)
Definition to_check_numbers (m : mjmodel) (zs : list Z) (ex : list (Z * Z)) (g1 g2 : Z) : Prop :=
  exists z1 z2 b1 b2, In z1 zs /\ In z2 zs /\ ~ In (z1, z2) ex /\ ~ In (z2, z1) ex /\
    picks m z1 b1 /\ picks m z2 b2 /\ may_collide m b1 b2 /\
    is_geom m g1 /\ ent (m_geom_bodyid m) g1 = b1 /\
    is_geom m g2 /\ ent (m_geom_bodyid m) g2 = b2 /\ compatible m g1 g2.
