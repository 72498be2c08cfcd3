(** Vocabulary for the exact forms of C25, C46 and C64. *)
From Verif Require Import Base Lin Mjx Typing Component SpecComponent SpecShape SpecValue Rot Conf.
Open Scope R_scope.

(** World coordinates of the point with coordinates [x] in the frame [T]. *)
Definition acts (T : se3) (x : v3) : v3 := v3_add (q_app (s_rot T) x) (s_pos T).
(** [T] turns coordinates in the frame [A] into coordinates in the frame [B]. *)
Definition changes_frame (A B T : se3) : Prop := forall x, acts B (acts T x) = acts A x.
(** Moving twice by [T] is not moving at all. *)
Definition self_inverse (T : se3) : Prop := forall x, acts T (acts T x) = x.
(** A frame at the world origin without rotation, or turned by half a turn about an axis
    that its position is perpendicular to. *)
Definition flips (T : se3) : Prop :=
  (q_im (s_rot T) = v3_zero /\ s_pos T = v3_zero) \/ (qw (s_rot T) = 0 /\ v3_dot (q_im (s_rot T)) (s_pos T) = 0).
Definition unit_pose (T : se3) : Prop := q_norm2 (s_rot T) = 1.

(** The mask of a quantity with [n] entries selects something beyond its end, and not its
    last entry. *)
Definition overreaches (n : nat) (mk : option marr) : Prop :=
  (exists a, In a (axes n mk) /\ (n <= a)%nat) /\ ~ In (n - 1)%nat (axes n mk).
