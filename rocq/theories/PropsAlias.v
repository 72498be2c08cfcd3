(** C109: when changing a list or array after passing it matters. *)
From Verif Require Import Base Lin Mjx Typing Component Problem SpecComponent Alias SpecAlias Witness AliasFacts AliasFacts2.
Open Scope nat_scope.

(** A program that leaves the lists it handed over alone runs as if every argument were
    copied when it is passed: the same state, and the same outcome of every call. *)
Theorem C109_runs_by_value prog : left_alone prog -> s_world (act_run prog empty_scene) = run (by_value prog []) empty_world.
Proof. exact (runs_by_value prog). Qed.
Print Assumptions C109_runs_by_value.

Theorem C109_calls_by_value p f q : left_alone (p ++ ACall f :: q) ->
  fst (act_step (ACall f) (act_run p empty_scene)) = fst (step (f (objects_after p [])) (run (by_value p []) empty_world)).
Proof. exact (calls_by_value p f q). Qed.
Print Assumptions C109_calls_by_value.

(** In any program: an object that was only used for numeric arguments (gain, cost,
    targets, limits, masks of other components) may be changed freely. *)
Theorem C109_numbers_are_copied prog r o : (forall a, In a prog -> ~ hands_over a r) ->
  s_world (act_run (prog ++ [AWrite r o]) empty_scene) = s_world (act_run prog empty_scene).
Proof. exact (numbers_copied prog r o). Qed.
Print Assumptions C109_numbers_are_copied.

Definition limit_prog : list act :=
  [AObj (PMask [1; 0]%Z); AObj (PArr (tvec [1%R])); ACall (fun _ => WNewProblem arm2 (tscalar (-1)) (tscalar 1));
   AJointBarrier "range" (fun _ => tscalar 1) None 0 (fun _ => Some (tvec [0%R])) (fun _ => Some (tvec [4%R])) (Some 0); ACall (fun _ => WAdd 0 0);
   ACall (fun h => match h with [_; PArr t] => WCop 0 (OpQMin t) | _ => WCompile 0 end);
   AWrite 1 (PArr (tvec [2%R])); ACall (fun _ => WCompile 0)].
(** A mask is handed over, a limit array is changed after it was assigned. *)
Example C109_case : left_alone limit_prog /\ (exists r o, In (AWrite r o) limit_prog) /\
  match fst (act_step (ACall (fun _ => WCompile 0)) (act_run (removelast limit_prog) empty_scene)) with
  | Ok (OData (mkJD _ _ _ [(_, j)])) => j_dim j = 2%Z /\ exists sdg hi, j_ext j = JBarrier sdg (JBJoint (tvec [1%R]) hi [0%Z])
  | _ => False
  end.
Proof.
  split.
  - intros p a q r o E Hh Hin. unfold limit_prog in E.
    do 8 (destruct p as [|? p]; [cbn [app] in E; injection E as <- <-; cbn in Hh; try contradiction; injection Hh as <-; cbn in Hin; intuition discriminate|cbn [app] in E; injection E as <- E]).
    destruct p; discriminate.
  - split; [exists 1, (PArr (tvec [2%R])); cbn; tauto|]. cbn -[IZR]. split; [reflexivity|]. eexists _, _. reflexivity.
Qed.

(** Joint masks and collision lists are kept by reference: changing one between
    construction and [add_component] changes what is compiled. *)
Definition mask_prog (l : list Z) : list act :=
  [AObj (PMask [1; 0]%Z); ACall (fun _ => WNewProblem arm2 (tscalar (-1)) (tscalar 1));
   AJointBarrier "range" (fun _ => tscalar 1) None 0 (fun _ => Some (tvec [0%R])) (fun _ => Some (tvec [4%R])) (Some 0); AWrite 0 (PMask l); ACall (fun _ => WAdd 0 0)].
Theorem C109_lists_are_copied_refuted : ~ forall prog f,
  fst (act_step (ACall f) (act_run prog empty_scene)) = fst (step (f (objects_after prog [])) (run (by_value prog []) empty_world)).
Proof.
  intros H. specialize (H (mask_prog [1; 1]%Z) (fun _ => WCompile 0)).
  apply (f_equal (fun r => match r with Ok (OData pd) => map (fun e => j_dim (snd e)) (jd_comps pd) | _ => [] end)) in H. vm_compute in H. discriminate H.
Qed.
Print Assumptions C109_lists_are_copied_refuted.

(** Such a change has no effect before a component that keeps the list is bound again:
    every other series of calls returns and raises the same. *)
Theorem C109_unnoticed_until_bound s r o os : Forall (binds_no_holder s r) os ->
  outcomes os (s_world (snd (act_step (AWrite r o) s))) = outcomes os (s_world s).
Proof. exact (unnoticed_until_bound s r o os). Qed.
Print Assumptions C109_unnoticed_until_bound.

(** The mask is changed after binding: compiling and assigning go on as before, although
    component 0 holds the list. *)
Example C109_unnoticed_case : let s := act_run (removelast limit_prog) empty_scene in holder s 0 0 /\
  Forall (binds_no_holder s 0) [WCompile 0; WCop 0 (OpQMin (tvec [3%R])); WCop 0 OpReadJax; WCompile 0] /\
  s_world (snd (act_step (AWrite 0 (PMask [1; 1]%Z)) s)) <> s_world s.
Proof.
  split; [exists (mkK (Some 0) None None); split; [reflexivity|left; reflexivity]|]. split; [repeat constructor|].
  intros H. apply (f_equal (fun w => match w_comps w with [c] => match a_ext (c_at c) with XBarrier _ (BJoint j) => jb_final j | _ => None end | _ => None end)) in H. vm_compute in H. discriminate H.
Qed.

(** Changing a list right after construction is changing it before: the contents at the
    time of binding count. *)
Theorem C109_contents_at_binding prog a r o : list_constructor a ->
  act_run (prog ++ [a; AWrite r o]) empty_scene = act_run (prog ++ [AWrite r o; a]) empty_scene.
Proof. exact (change_then_construct prog a r o). Qed.
Print Assumptions C109_contents_at_binding.

(** A self-collision barrier over all bodies lets the caller's empty list go when it is
    bound; one with a list of its own keeps it. *)
Definition bodies_prog (l : list cbody) : list act :=
  [AObj (PBodies l); ACall (fun _ => WNewProblem arm2 (tscalar (-1)) (tscalar 1));
   ASelfCollision "apart" (fun _ => tscalar 1) None 0 0 (Some 0) None (-1); ACall (fun _ => WAdd 0 0)].
Example C109_lists_case : list_constructor (ASelfCollision "apart" (fun _ => tscalar 1) None 0 0 (Some 0) None (-1)) /\
  ~ holder (act_run (bodies_prog []) empty_scene) 0 0 /\ holder (act_run (bodies_prog [CBInt 1; CBInt 2]) empty_scene) 0 0.
Proof.
  split; [intros h h'; reflexivity|]. split.
  - intros (k & E & H). vm_compute in E. injection E as <-. cbn in H. intuition discriminate.
  - exists (mkK None (Some 0) None). split; [vm_compute; reflexivity|]. right; left; reflexivity.
Qed.
