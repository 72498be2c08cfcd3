(** C114: the fields of compiled components and problem data. *)
From Verif Require Import Base Lin Mjx Typing Component SpecComponent SpecJoint Problem SpecProblem SpecSettings Witness Read SpecRead ProbThms CompThms2 ReadFacts2 ReadFacts3 ReadFacts6 PropsRead JaxTree SpecJaxTree SpecFields FieldFacts.
Open Scope nat_scope.

(** Reading a field of the compiled component gives what the attribute of the same name shows
    on the component it was compiled from; an attribute that the component does not have is not a
    field either. *)
Theorem C114_fields_are_attributes c us j x f : constructed c -> Forall public us -> shows (uses us c) AJax = Ok (VJax j) -> field_named x = Some f ->
  match shows (uses us c) x with
  | Ok v => at_path [f] (component_object j) = shown_value x v /\ shown_value x v <> None
  | Err _ => at_path [f] (component_object j) = None
  end.
Proof. intros Hc _ H. exact (Inv_fields _ j x f (uses_Inv us c (constructed_Inv c Hc)) (jax_shown _ j H)). Qed.
Print Assumptions C114_fields_are_attributes.
(** There are no other fields, but for the function of a user-defined class. *)
Theorem C114_no_other_fields j f : has_field (component_object j) f -> f = "function"%string \/ exists x, field_named x = Some f.
Proof. exact (every_field j f). Qed.
Print Assumptions C114_no_other_fields.
(** Exactly the listed fields are constants for JAX; the others are leaves or subtrees that can
    be traced, replaced and batched. *)
Theorem C114_constants j x f : field_named x = Some f -> at_path [f] (component_object j) <> None ->
  (in_tree [f] (component_object j) <-> ~ In f constant_fields).
Proof. exact (constants j x f). Qed.
Print Assumptions C114_constants.
Example C114_fields_case : exists j, shows (uses some_uses demo_task) AJax = Ok (VJax j) /\
  shows (uses some_uses demo_task) ATargetPos = Ok (VArray (tvec [1; 2; 3]%R)) /\
  at_path ["target_pos"%string] (component_object j) = Some (PArr (tvec [1; 2; 3]%R)) /\
  at_path ["obj_id"%string] (component_object j) <> None /\ at_path ["q_min"%string] (component_object j) = None /\
  in_tree ["target_pos"%string] (component_object j) /\ ~ in_tree ["obj_id"%string] (component_object j).
Proof.
  eexists. split; [vm_compute; reflexivity|]. split; [vm_compute; reflexivity|]. split; [reflexivity|]. split; [discriminate|]. split; [reflexivity|].
  split; [now split|]. intros [H _]. discriminate H.
Qed.

(** The fields of compiled problem data: the problem's model and limits, and under the name of
    each registered component what that component's attributes show.  Other names are absent. *)
Theorem C114_problem_data os pi p pd : Forall legal os -> problem_of (state os) pi p -> fst (step (WCompile pi) (state os)) = Ok (OData pd) ->
  at_path ["model"%string] (data_object pd) = Some (PModel (p_model p)) /\
  at_path ["v_min"%string] (data_object pd) = Some (PArr (tvec (p_vmin p))) /\
  at_path ["v_max"%string] (data_object pd) = Some (PArr (tvec (p_vmax p))) /\
  (forall n, (forall i, ~ In (n, i) (p_comps p)) -> at_path ["components"%string; n] (data_object pd) = None) /\
  (forall n i c x f, In (n, i) (p_comps p) -> nth_error (w_comps (state os)) i = Some c -> field_named x = Some f ->
     match shows c x with
     | Ok v => at_path ["components"%string; n; f] (data_object pd) = shown_value x v /\ shown_value x v <> None
     | Err _ => at_path ["components"%string; n; f] (data_object pd) = None
     end).
Proof. exact (data_fields os pi p pd). Qed.
Print Assumptions C114_problem_data.
(** All four parts of the problem data can be batched. *)
Theorem C114_problem_data_in_tree pd n j : In (n, j) (jd_comps pd) -> in_tree ["model"%string] (data_object pd) /\
  in_tree ["v_min"%string] (data_object pd) /\ in_tree ["v_max"%string] (data_object pd) /\ in_tree ["components"%string; n] (data_object pd).
Proof. exact (data_in_tree pd n j). Qed.
Print Assumptions C114_problem_data_in_tree.
Example C114_problem_data_case : Forall legal demo_prog /\ problem_of (state demo_prog) 0 demo_prob /\
  exists pd, fst (step (WCompile 0) (state demo_prog)) = Ok (OData pd) /\ In ("reach"%string, 0) (p_comps demo_prob) /\
    at_path ["v_max"%string] (data_object pd) = Some (PArr (tvec [1; 2]%R)) /\
    at_path ["components"; "reach"; "dim"]%string (data_object pd) = Some (PInt 3).
Proof.
  split; [exact (proj1 (proj2 demo_prog_ok))|]. split; [exact (proj1 demo_prog_ok)|].
  eexists. split; [vm_compute; reflexivity|]. split; [right; left; reflexivity|]. split; reflexivity.
Qed.
