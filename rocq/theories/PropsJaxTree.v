(** C08, C15: updating compiled components, templates for vmap. *)
From Verif Require Import Base Lin Mjx Typing Component Problem SpecComponent SpecJoint SpecHistory SpecProblem Witness CompThms2 ProbThms JaxTree SpecJaxTree JaxTreeFacts JaxTreeThms.
Open Scope nat_scope.

(** ** C08.  Any sequence of updates: same class, the last write to a field wins, the
    fields never written keep their value. *)
Theorem C08_updates kws i h o r h' : nth_error h i = Some o -> (forall kw, In kw kws -> kwargs kw) -> updates kws i h = (Ok r, h') ->
  exists o', nth_error h' r = Some o' /\ class_of o' = class_of o /\ declared o' = declared o /\
    (forall n v, last_write kws n v -> attr o' n = Some v) /\ (forall n, never_written kws n -> attr o' n = attr o n).
Proof. exact (copies_values kws i h o r h'). Qed.
Print Assumptions C08_updates.
(** Accepted exactly when every name is a field; TypeError otherwise. *)
Theorem C08_accepted kws i h o : nth_error h i = Some o -> class_of o <> None -> (forall kw, In kw kws -> kwargs kw) ->
  ((exists r, fst (updates kws i h) = Ok r) <-> (forall kw n, In kw kws -> In n (map fst kw) -> has_field o n)) /\
  ((exists kw n, In kw kws /\ In n (map fst kw) /\ ~ has_field o n) -> fst (updates kws i h) = Err TypeError).
Proof. exact (copies_accepted kws i h o). Qed.
Print Assumptions C08_accepted.
(** No existing object changes; the result is a new object. *)
Theorem C08_originals_unchanged kws i h k o : nth_error h k = Some o -> nth_error (snd (updates kws i h)) k = Some o.
Proof. exact (originals_kept kws i h k o). Qed.
Print Assumptions C08_originals_unchanged.
Theorem C08_result_is_new kw i h r h' : copy_and_set i kw h = (Ok r, h') -> r = List.length h /\ nth_error h r = None /\ exists o, h' = h ++ [o].
Proof. exact (result_is_new kw i h r h'). Qed.
Print Assumptions C08_result_is_new.
Theorem C08_commute kw1 kw2 i h o r1 h1 o' : nth_error h i = Some o -> NoDup (map fst (declared o)) -> kwargs kw1 -> kwargs kw2 ->
  (forall n, In n (map fst kw1) -> ~ In n (map fst kw2)) ->
  updates [kw1; kw2] i h = (Ok r1, h1) -> nth_error h1 r1 = Some o' ->
  exists r2 h2, updates [kw2; kw1] i h = (Ok r2, h2) /\ nth_error h2 r2 = Some o'.
Proof. exact (copies_commute kw1 kw2 i h o r1 h1 o'). Qed.
Print Assumptions C08_commute.
Theorem C08_overwrite kw1 kw2 i h o r1 h1 o' : nth_error h i = Some o -> NoDup (map fst (declared o)) -> kwargs kw1 -> kwargs kw2 ->
  (forall n, In n (map fst kw1) -> In n (map fst kw2)) ->
  updates [kw1; kw2] i h = (Ok r1, h1) -> nth_error h1 r1 = Some o' ->
  exists r2 h2, copy_and_set i kw2 h = (Ok r2, h2) /\ nth_error h2 r2 = Some o'.
Proof. exact (copies_overwrite kw1 kw2 i h o r1 h1 o'). Qed.
Print Assumptions C08_overwrite.
(** Compiled components are such objects; setting their gain or target yields the
    compiled component with that gain or target. *)
Theorem C08_components_are_objects j : NoDup (map fst (declared (component_object j))) /\ class_of (component_object j) <> None.
Proof. exact (component_fields_distinct j). Qed.
Print Assumptions C08_components_are_objects.
Theorem C08_set_gain j g h i : nth_error h i = Some (component_object j) ->
  copy_and_set i [("vector_gain"%string, PArr (tvec g))] h
  = (Ok (List.length h), h ++ [component_object (mkJ (j_dim j) (j_model j) g (j_gain_fn j) (j_mask_idxs j) (j_ext j))]).
Proof. exact (copy_gain j g h i). Qed.
Print Assumptions C08_set_gain.
Theorem C08_set_target j t f v j' h i : with_target j t = Some (f, v, j') -> nth_error h i = Some (component_object j) ->
  copy_and_set i [(f, v)] h = (Ok (List.length h), h ++ [component_object j']).
Proof. exact (copy_target j t f v j' h i). Qed.
Print Assumptions C08_set_target.
(** Three updates of one centre of mass task, the same final values in another
    order, and a name that belongs to another class. *)
Example C08_case : let h := [component_object some_task] in
  let gain g := [("vector_gain"%string, PArr (tvec g))] in let target t := [("target_com"%string, PArr (tvec t))] in
  exists h1 h2 o,
    updates [gain [1; 1; 1]%R; target [5; 5; 5]%R; gain [3; 3; 3]%R] 0 h = (Ok 3, h1) /\ nth_error h1 3 = Some o /\
    updates [gain [3; 3; 3]%R; target [5; 5; 5]%R] 0 h = (Ok 2, h2) /\ nth_error h2 2 = Some o /\
    attr o "vector_gain" = Some (PArr (tvec [3; 3; 3]%R)) /\ attr o "target_com" = Some (PArr (tvec [5; 5; 5]%R)) /\
    updates [gain [1; 1; 1]%R; [("target_pos"%string, PNone)]] 0 h = (Err TypeError, h ++ [component_object (mkJ 3 arm2 [1; 1; 1]%R (fun x => x) [0; 1; 2]%Z (j_ext some_task))]).
Proof. exact copies_case. Qed.

(** ** C15.  It succeeds exactly when compile does, with the same effects. *)
Theorem C15_outcome pi w :
  match compile pi w with
  | (Ok (OData pd), w') => exists t, set_vmap_dimension pi w = (Ok t, w')
  | (Err e, w') => set_vmap_dimension pi w = (Err e, w')
  | _ => False
  end.
Proof. exact (template_outcome pi w). Qed.
Print Assumptions C15_outcome.
(** Same places, same static values; every array leaf is None; every other node has
    the class and fields, or the keys, it has in the compiled data. *)
Theorem C15_structure pi w t w' pd : set_vmap_dimension pi w = (Ok t, w') -> compile pi w = (Ok (OData pd), w') ->
  (forall q, at_path q t = None <-> at_path q (data_object pd) = None) /\
  (forall q v, at_path q (data_object pd) = Some v -> ~ in_tree q (data_object pd) -> at_path q t = Some v) /\
  (forall q v, at_path q (data_object pd) = Some v -> in_tree q (data_object pd) -> is_leaf v -> at_path q t = Some PNone) /\
  (forall q v, at_path q (data_object pd) = Some v -> in_tree q (data_object pd) -> ~ is_leaf v -> exists v', at_path q t = Some v' /\ same_node v v').
Proof. exact (template_structure pi w t w' pd). Qed.
Print Assumptions C15_structure.
Theorem C15_components pi w t w' pd : set_vmap_dimension pi w = (Ok t, w') -> compile pi w = (Ok (OData pd), w') ->
  exists es, at_path ["components"%string] t = Some (PDict es) /\ Permutation (map fst es) (map fst (jd_comps pd)) /\
    Sorted (fun a b => String.leb a b = true) (map fst es) /\
    forall n j, assoc n (jd_comps pd) = Some j -> exists o, assoc n es = Some o /\ class_of o = class_of (component_object j) /\ declared o = declared (component_object j).
Proof. exact (template_components pi w t w' pd). Qed.
Print Assumptions C15_components.
(** After giving axis 0 to some places, each sample sees the slices of exactly those
    leaves and everything else as it is. *)
Theorem C15_axes_affect_only_those_leaves pi w t w' pd paths t' slice :
  set_vmap_dimension pi w = (Ok t, w') -> compile pi w = (Ok (OData pd), w') -> set_axes paths t = Ok t' ->
  (forall q v, at_path q (data_object pd) = Some v -> in_tree q (data_object pd) -> is_leaf v -> (exists p, In p paths /\ under p q) ->
     at_path q (sample slice t' (data_object pd)) = Some (slice v)) /\
  (forall q v, at_path q (data_object pd) = Some v -> in_tree q (data_object pd) -> is_leaf v -> (forall p, In p paths -> ~ under p q) ->
     at_path q (sample slice t' (data_object pd)) = Some v) /\
  (forall q v, at_path q (data_object pd) = Some v -> ~ in_tree q (data_object pd) -> at_path q (sample slice t' (data_object pd)) = Some v).
Proof. exact (template_axes pi w t w' pd paths t' slice). Qed.
Print Assumptions C15_axes_affect_only_those_leaves.
Theorem C15_any_place_can_be_set pi w t w' pd q v : set_vmap_dimension pi w = (Ok t, w') -> compile pi w = (Ok (OData pd), w') ->
  at_path q (data_object pd) = Some v -> exists t', set_axes [q] t = Ok t'.
Proof. exact (axis_accepted pi w t w' pd q v). Qed.
Print Assumptions C15_any_place_can_be_set.
Example C15_case slice : exists pd w' t t' g, set_vmap_dimension 0 (state demo_prog) = (Ok t, w') /\ compile 0 (state demo_prog) = (Ok (OData pd), w') /\
  set_axes [reach_gain] t = Ok t' /\ at_path reach_gain (data_object pd) = Some (PArr (tvec g)) /\ in_tree reach_gain (data_object pd) /\
  at_path reach_gain (sample slice t' (data_object pd)) = Some (slice (PArr (tvec g))) /\
  at_path ["components"; "hold"; "vector_gain"]%string (sample slice t' (data_object pd)) = at_path ["components"; "hold"; "vector_gain"]%string (data_object pd) /\
  at_path ["components"; "reach"; "matrix_cost"]%string t' = Some PNone /\ at_path ["components"; "reach"; "dim"]%string t' = Some (PInt 3).
Proof. exact (axes_case slice). Qed.
(** The order of the components is not kept: the template lists them by name. *)
Theorem C15_order_refuted : Forall legal order_prog /\ exists pd t es, fst (compile 0 (state order_prog)) = Ok (OData pd) /\ fst (set_vmap_dimension 0 (state order_prog)) = Ok t /\
  at_path ["components"%string] t = Some (PDict es) /\ map fst (jd_comps pd) = ["reach"%string; "hold"%string] /\ map fst es = ["hold"%string; "reach"%string].
Proof. exact order_broken. Qed.
Print Assumptions C15_order_refuted.
