(** Vocabulary: passing by value, and who holds which of the caller's lists. *)
From Verif Require Import Base Lin Mjx Typing Component Problem Alias.
Open Scope nat_scope.

(** The caller's objects after a program: created and changed by the caller only. *)
Definition changed (r : nat) (o : pyobj) (h : memory) : memory :=
  match nth_error h r with Some o0 => if same_kind o0 o then replace_nth r o h else h | None => h end.
Definition objects_after (prog : list act) (h : memory) : memory :=
  fold_left (fun h a => match a with AObj o => h ++ [o] | AWrite r o => changed r o h | _ => h end) prog h.

(** The same program if every argument were copied when it is passed: each call and each
    construction uses the contents its arguments have at that moment. *)
Definition copied_call (a : act) (h : memory) : list wop :=
  match a with
  | ACall f => [f h]
  | _ => match construct a h with Some (Ok c, _) => [WNewComp c] | _ => [] end
  end.
Fixpoint by_value (prog : list act) (h : memory) : list wop :=
  match prog with
  | [] => []
  | a :: r => copied_call a h ++ by_value r (objects_after [a] h)
  end.

(** The lists an action hands over: the mask of a joint component, the body and exclusion
    lists of a self-collision barrier. *)
Definition hands_over (a : act) (r : nat) : Prop :=
  match a with
  | AJointTask _ _ _ _ _ mk | AJointBarrier _ _ _ _ _ _ mk => mk = Some r
  | ASelfCollision _ _ _ _ _ bs ex _ => bs = Some r \/ ex = Some r
  | _ => False
  end.
(** No list is changed in place after it was handed over. *)
Definition left_alone (prog : list act) : Prop :=
  forall p a q r o, prog = p ++ a :: q -> hands_over a r -> ~ In (AWrite r o) q.

(** Component [i] holds the caller's object [r]. *)
Definition holder (s : scene) (r i : nat) : Prop :=
  exists k, nth_error (s_kept s) i = Some k /\ (k_mask k = Some r \/ k_bodies k = Some r \/ k_excl k = Some r).
(** The call does not bind a holder of [r] to a model, nor overwrite its attributes. *)
Definition binds_no_holder (s : scene) (r : nat) (o : wop) : Prop :=
  match o with
  | WAdd _ i => ~ holder s r i
  | WCop i (OpModel _) => ~ holder s r i
  | WCop i (OpAssign _) => ~ holder s r i
  | _ => True
  end.
(** What a series of calls returns or raises. *)
Fixpoint outcomes (os : list wop) (w : world) : list (res out) :=
  match os with [] => [] | o :: r => fst (step o w) :: outcomes r (snd (step o w)) end.

(** Construction of a component that keeps lists, from numbers the caller does not change. *)
Definition list_constructor (a : act) : Prop :=
  match a with
  | AJointTask _ cost gain _ _ _ => (forall h h', cost h = cost h') /\ (forall h h', gain h = gain h')
  | AJointBarrier _ gain _ _ lo hi _ => (forall h h', gain h = gain h') /\ (forall h h', lo h = lo h') /\ (forall h h', hi h = hi h')
  | ASelfCollision _ gain _ _ _ _ _ _ => forall h h', gain h = gain h'
  | _ => False
  end.
