(** Vocabulary for C93: a batch of vectors. *)
From Verif Require Import Base Lin Mjx Typing Component Problem SpecComponent SpecBatch.
Open Scope nat_scope.

(** The call assigns one vector per lane (for poses given as SE3 objects: of seven
    numbers each). *)
Definition vectors (N : nat) (o : cop) : Prop :=
  exists t d, array_of o = Some t /\ wf_tensor t /\ t_shape t = [N; d] /\
    match o with OpTargetFrame (FSE3 _) => d = 7 | _ => True end.
