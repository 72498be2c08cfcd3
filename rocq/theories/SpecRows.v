(** Which pair a row of the self-collision Jacobian takes its bodies from. *)
From Verif Require Import Base Mjx SpecCollision SpecContact.

(** The pair at a position of a list; past the end, the last one. *)
Definition pair_at (ps : list (Z * Z)) (k : nat) : Z * Z := nth (Nat.min k (List.length ps - 1)) ps (0, 0)%Z.
(** The geoms of the two pairs belong to the same bodies, in the same order. *)
Definition same_bodies (m : mjmodel) (p g : Z * Z) : Prop :=
  ent (m_geom_bodyid m) (fst p) = ent (m_geom_bodyid m) (fst g) /\ ent (m_geom_bodyid m) (snd p) = ent (m_geom_bodyid m) (snd g).
