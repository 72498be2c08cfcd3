(** Vocabulary for C110: the loss of the global solver as a sum over the components. *)
From Verif Require Import Base Lin Mjx Typing Component Problem JaxComponents GlobalIK SpecQP SpecGlobal.
Open Scope R_scope.

(** Differentiation depends on the values of the function only, not on how they are computed. *)
Definition reads_values (grad : gradient) : Prop :=
  forall f g x, (forall y, List.length y = List.length x -> f y = g y) -> grad f x = grad g x.
(** The loss is defined at every configuration of the robot. *)
Definition has_loss (L : lib) (m : mjmodel) (pd : jdata) : Prop :=
  forall x, List.length x = m_nq m -> exists y, loss_fn L x pd = Ok y.
(** The same problem with other components. *)
Definition only (pd : jdata) (js : list (string * jaxc)) : jdata := mkJD (jd_model pd) (jd_vmin pd) (jd_vmax pd) js.
