(** Vocabulary for C113: what a constructor was given, read back later. *)
From Verif Require Import Base Lin Mjx Typing Component SpecComponent SpecSettings Read SpecRead.
Open Scope nat_scope.

(** The attribute shows this value now and after any uses whatever. *)
Definition forever (c : comp) (x : attribute) (v : value) : Prop :=
  forall us, Forall public us -> shows (uses us c) x = Ok v.
(** The gain function, for every argument; the identity if none was given. *)
Definition forever_fn (c : comp) (gain_fn : option (R -> R)) : Prop :=
  forall us, Forall public us ->
  exists f, shows (uses us c) AGainFn = Ok (VFun f) /\ forall r, f r = match gain_fn with Some g => g r | None => r end.
(** What every constructor is given: the name and the gain function stay, the gain is the first one. *)
Definition given (name : string) (gain : tensor) (gain_fn : option (R -> R)) (c : comp) : Prop :=
  forever c AName (VString name) /\ forever_fn c gain_fn /\ shows c AGain = Ok (VArray gain).
(** What every task is given. *)
Definition given_task (name : string) (cost gain : tensor) (gain_fn : option (R -> R)) (lm : R) (c : comp) : Prop :=
  given name gain gain_fn c /\ forever c ALmDamping (VReal lm) /\ shows c ACost = Ok (VArray cost).
Definition given_barrier (name : string) (gain : tensor) (gain_fn : option (R -> R)) (sdg : R) (c : comp) : Prop :=
  given name gain gain_fn c /\ forever c ASafeDisplacementGain (VReal sdg).
Definition given_object (c : comp) (name : string) (ty : objtype) : Prop :=
  forever c AObjName (VString name) /\ forever c AObjType (VObjType ty).
