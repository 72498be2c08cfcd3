(** C111, C112, C113: looking at a component, its modified flag, and what its attributes show. *)
From Verif Require Import Base Lin Mjx Typing Component SpecComponent SpecJoint SpecHistory SpecSettings Read SpecRead Witness CompThms2 ReadFacts2 ReadFacts3 ReadFacts4 ReadFacts5 ReadFacts6.
Open Scope nat_scope.

(** Interleave any calls with any looks at public attributes.  Every call returns or raises as it
    would have without the looks, and every attribute shows what it would have shown; only
    [modified], and [mask] of a model equality constraint, are exceptions. *)
Theorem C111_looks_change_nothing c us : constructed c -> Forall public us ->
  answers us c = answers (map Do (calls us)) c /\
  forall x, x <> AModified -> (is_equality c -> x <> AMask) -> shows (uses us c) x = shows (uses (map Do (calls us)) c) x.
Proof. exact (looking_changes_nothing c us). Qed.
Print Assumptions C111_looks_change_nothing.

Definition some_uses : list use :=
  [Look AMask; Look AJax; Do (OpModel arm2); Look AMaskIdxs; Look AJax; Do (OpGain (mkT [1; 1] [7%R])); Do (OpTargetPos (tvec [1; 2; 3]%R)); Look AModified; Do (OpTargetPos (tvec [1; 2]%R)); Look AJax].
Example C111_looks_change_nothing_case : constructed demo_task /\ Forall public some_uses /\ ~ is_equality demo_task /\
  calls some_uses = [OpModel arm2; OpGain (mkT [1; 1] [7%R]); OpTargetPos (tvec [1; 2; 3]%R); OpTargetPos (tvec [1; 2]%R)] /\
  answers some_uses demo_task = [Ok tt; Err ValueError; Ok tt; Err ValueError] /\
  shows (uses some_uses demo_task) ATargetPos = Ok (VArray (tvec [1; 2; 3]%R)) /\ shows (uses some_uses demo_task) AMask = Ok (VInts [1; 1; 1]%Z) /\
  c_at (uses some_uses demo_task) <> c_at (uses (map Do (calls some_uses)) demo_task).
Proof.
  split; [exact demo_task_made|]. split; [repeat constructor|]. split; [intros (a & h & s & H); discriminate H|].
  split; [reflexivity|]. split; [vm_compute; reflexivity|]. split; [vm_compute; reflexivity|]. split; [vm_compute; reflexivity|].
  intros H. apply (f_equal a_mask) in H. vm_compute in H. discriminate H.
Qed.

(** The exception: a look at [mask] between two bindings of an equality constraint is felt later. *)
Theorem C111_equality_mask_exception : exists c us, constructed c /\ Forall public us /\ is_equality c /\
  shows (uses us c) AMask = Ok (VInts [1]%Z) /\ shows (uses (map Do (calls us)) c) AMask = Ok (VInts [1; 1; 1]%Z).
Proof.
  exists demo_equality, [Do (OpModel (with_eq arm2 [EqJoint])); Look AMask; Do (OpModel (with_eq arm2 [EqConnect]))].
  split; [apply (made_model_equality "eq" (tscalar 1) true None); reflexivity|]. split; [repeat constructor|]. split; [do 3 eexists; reflexivity|]. split; vm_compute; reflexivity.
Qed.
Print Assumptions C111_equality_mask_exception.

(** While [modified] is False, a look leaves the component exactly as it is. *)
Theorem C111_look_at_unmodified c us x : constructed c -> Forall public us -> shows (uses us c) AModified = Ok (VBool false) ->
  uses (us ++ [Look x]) c = uses us c.
Proof. exact (look_nothing c us x). Qed.
Print Assumptions C111_look_at_unmodified.
Example C111_look_at_unmodified_case : constructed demo_task /\ Forall public some_uses /\ shows (uses some_uses demo_task) AModified = Ok (VBool false).
Proof. split; [exact demo_task_made|]. split; [repeat constructor|]. vm_compute. reflexivity. Qed.

(** [modified] is False exactly if the component has been compiled and since then no call
    assigned anything: only looks, rejected calls other than bindings, and limit updates that
    the class ignores. *)
Theorem C112_modified c us : constructed c -> Forall public us ->
  (shows (uses us c) AModified = Ok (VBool false) <->
   exists us1 us2, us = us1 ++ Look AJax :: us2 /\ is_ok (shows (uses us1 c) AJax) = true /\ quiet us2 (uses (us1 ++ [Look AJax]) c)).
Proof. exact (modified_false c us). Qed.
Print Assumptions C112_modified.
Example C112_modified_case :
  let before := [Do (OpModel arm2)] in let rest := [Look AMask; Do (OpTargetPos (tvec [1; 2]%R)); Do (OpPMin (tscalar 1))] in
  constructed demo_task /\ Forall public (before ++ Look AJax :: rest) /\ is_ok (shows (uses before demo_task) AJax) = true /\
  quiet rest (uses (before ++ [Look AJax]) demo_task) /\
  shows (uses (before ++ Look AJax :: rest) demo_task) AModified = Ok (VBool false) /\
  shows (uses (before ++ Look AJax :: rest ++ [Do (OpTargetPos (tvec [0; 0; 0]%R))]) demo_task) AModified = Ok (VBool true) /\
  shows (uses (before ++ Look AJax :: rest ++ [Do (OpModel arm2)]) demo_task) AModified = Ok (VBool true).
Proof.
  cbn zeta. split; [exact demo_task_made|]. split; [repeat constructor|]. split; [vm_compute; reflexivity|].
  split; [cbn [quiet]; repeat split; left; vm_compute; reflexivity|]. repeat split; vm_compute; reflexivity.
Qed.

(** The compiled component, when there is one, is what the attributes show. *)
Theorem C113_compiled_is_shown c us j : constructed c -> Forall public us -> shows (uses us c) AJax = Ok (VJax j) -> carries (uses us c) j.
Proof. intros Hc _ H. exact (shows_carried _ j (uses_Inv us c (constructed_Inv c Hc)) H). Qed.
Print Assumptions C113_compiled_is_shown.
Example C113_compiled_is_shown_case : exists j, shows (uses some_uses demo_task) AJax = Ok (VJax j) /\
  j_dim j = 3%Z /\ exists W lm i ty, j_ext j = JTask W lm (JTPos i ty (tvec [1; 2; 3]%R)).
Proof. eexists. split; [vm_compute; reflexivity|]. split; [reflexivity|]. do 4 eexists. reflexivity. Qed.

(** An attribute the class does not define raises AttributeError, always. *)
Theorem C113_undefined c us x : constructed c -> Forall public us -> defined (class_of c) x = false -> shows (uses us c) x = Err AttributeError.
Proof. intros Hc HF H. apply not_defined. now rewrite (uses_class us c (constructed_Inv c Hc) HF). Qed.
Print Assumptions C113_undefined.
(** Names, gains, costs, targets of points and frames, limits and the like can always be read. *)
Theorem C113_always_readable c us x : constructed c -> Forall public us -> defined (class_of c) x = true -> unconditional x = true ->
  exists v, shows (uses us c) x = Ok v.
Proof. intros Hc HF H. apply always_defined. now rewrite (uses_class us c (constructed_Inv c Hc) HF). Qed.
Print Assumptions C113_always_readable.
Example C113_defined_case : defined (class_of demo_task) ATargetCom = false /\ defined (class_of demo_task) ATargetPos = true /\
  unconditional ATargetPos = true /\ shows demo_task ATargetCom = Err AttributeError.
Proof. repeat split. Qed.

(** [gain], [cost] and the targets show the value of the last accepted update. *)
Theorem C113_gain c us g : constructed c -> Forall public us -> shows c AGain = Ok (VArray g) ->
  shows (uses us c) AGain = Ok (VArray (last_accepted asks_gain (calls us) c g)).
Proof. exact (gain_shown c us g). Qed.
Print Assumptions C113_gain.
Theorem C113_cost c us w : constructed c -> Forall public us -> shows c ACost = Ok (VArray w) ->
  exists w', last_accepted asks_cost (calls us) c (Some w) = Some w' /\ shows (uses us c) ACost = Ok (VArray w').
Proof. exact (cost_shown c us w). Qed.
Print Assumptions C113_cost.
Theorem C113_target c us x t : constructed c -> Forall public us -> Forall no_array_frame (calls us) -> target_name (class_of c) = Some x ->
  shows c x = Ok (VArray t) ->
  exists t', last_accepted asks_target (calls us) c (Some t) = Some t' /\ shows (uses us c) x = Ok (VArray t').
Proof. exact (target_shown c us x t). Qed.
Print Assumptions C113_target.
Example C113_settings_case : constructed demo_task /\ Forall public some_uses /\ Forall no_array_frame (calls some_uses) /\
  shows demo_task AGain = Ok (VArray (tscalar 2)) /\ shows demo_task ACost = Ok (VArray (tvec [1; 2; 3]%R)) /\
  target_name (class_of demo_task) = Some ATargetPos /\ shows demo_task ATargetPos = Ok (VArray (tvec [0; 0; 0]%R)) /\
  last_accepted asks_target (calls some_uses) demo_task (Some (tvec [0; 0; 0]%R)) = Some (tvec [1; 2; 3]%R).
Proof.
  split; [exact demo_task_made|]. split; [repeat constructor|]. split; [repeat constructor|]. repeat (split; [reflexivity|]). vm_compute. reflexivity.
Qed.
(** [p_min] and [p_max] show the last accepted update that the limit type does not ignore. *)
Theorem C113_position_limits name gain on ty lo hi lts gf sdg mk c us : new_position_barrier name gain on ty lo hi lts gf sdg mk = Ok c -> Forall public us ->
  exists lt plo phi, from_str lts = Ok lt /\ shows c APMin = Ok (VArray plo) /\ shows c APMax = Ok (VArray phi) /\
  exists plo' phi', last_accepted (asks_p_min lt (n_axes mk)) (calls us) c (Some plo) = Some plo' /\ shows (uses us c) APMin = Ok (VArray plo') /\
                    last_accepted (asks_p_max lt (n_axes mk)) (calls us) c (Some phi) = Some phi' /\ shows (uses us c) APMax = Ok (VArray phi').
Proof. exact (p_shown name gain on ty lo hi lts gf sdg mk c us). Qed.
Print Assumptions C113_position_limits.
Example C113_position_limits_case : exists c, new_position_barrier "box" (tscalar 1) "tip" OBody (Some (tscalar 1%R)) None "min" None 0%R None = Ok c /\
  let us := [Do (OpPMin (tvec [5; 6]%R)); Look AMask; Do (OpPMax (tscalar 9%R)); Do (OpPMin (tscalar 2%R))] in
  Forall public us /\ shows (uses us c) APMin = Ok (VArray (tvec [2; 2; 2]%R)) /\ shows (uses us c) APMax = Ok (VArray (tvec [0; 0; 0]%R)).
Proof. eexists. split; [vm_compute; reflexivity|]. split; [repeat constructor|]. split; vm_compute; reflexivity. Qed.

(** [model] shows the model of the last binding attempted, even if the binding was rejected;
    only tasks and barriers on a named object keep the model of the last accepted one. *)
Theorem C113_model c us : constructed c -> Forall public us ->
  shows (uses us c) AModel = Ok (VModel (match object_class (class_of c) with
                                         | None => last_model (calls us) None
                                         | Some _ => last_accepted asks_model (calls us) c None
                                         end)).
Proof. exact (model_shown c us). Qed.
Print Assumptions C113_model.
(** A joint task that rejects a robot with the wrong number of joints shows that robot. *)
Example C113_model_case : constructed demo_joint /\ fst (run_cop (OpModel arm2) demo_joint) = Err ValueError /\
  shows (uses [Do (OpModel arm2)] demo_joint) AModel = Ok (VModel (Some arm2)) /\
  constructed demo_task /\ object_class (class_of demo_task) = Some ("tip"%string, OBody) /\
  returned (OpModel (with_eq arm2 [])) demo_task = true.
Proof.
  split. { apply (made_joint_task "joints" (tscalar 1) (tscalar 1) None 0%R (Some [1; 0; 1; 0]%Z)). unfold new_joint_task, init_task. cbn. rewrite not_neg0. reflexivity. }
  split; [vm_compute; reflexivity|]. split; [vm_compute; reflexivity|]. split; [exact demo_task_made|]. split; vm_compute; reflexivity.
Qed.

(** [obj_id] is the id in the model of the last binding attempted; without one, or if that model
    has no such object, a task shows -1 and a barrier raises ValueError. *)
Theorem C113_object_id c us n ty : constructed c -> Forall public us -> object_class (class_of c) = Some (n, ty) ->
  (forall m i, last_model (calls us) None = Some m -> wf_names m -> has_object m ty n i -> shows (uses us c) AObjId = Ok (VInt i)) /\
  (last_model (calls us) None = None \/ (exists m, last_model (calls us) None = Some m /\ wf_names m /\ forall i, ~ has_object m ty n i) ->
   shows (uses us c) AObjId = if barrier_class (class_of c) then Err ValueError else Ok (VInt (-1))).
Proof. exact (id_shown c us n ty). Qed.
Print Assumptions C113_object_id.
Example C113_object_id_case : shows demo_task AObjId = Ok (VInt (-1)) /\
  (exists i, shows (uses [Do (OpModel arm2)] demo_task) AObjId = Ok (VInt i) /\ has_object arm2 OBody "tip" i /\ wf_names arm2) /\
  exists c, new_position_barrier "box" (tscalar 1) "tip" OBody None None "both" None 0%R None = Ok c /\ shows c AObjId = Err ValueError.
Proof.
  split; [reflexivity|]. split.
  - eexists. split; [vm_compute; reflexivity|]. split; [cbn; auto 10|]. apply chain_names.
  - eexists. split; vm_compute; reflexivity.
Qed.

(** [target_q] can be read exactly once some [target_q] update or binding was accepted;
    before that it raises ValueError. *)
Theorem C113_target_q c us mk : constructed c -> Forall public us -> class_of c = KJoint mk ->
  (is_ok (shows (uses us c) ATargetQ) = true <-> accepted_call sets_target_q (calls us) c = true) /\
  (is_ok (shows (uses us c) ATargetQ) = false -> shows (uses us c) ATargetQ = Err ValueError).
Proof. exact (target_q_readable c us mk). Qed.
Print Assumptions C113_target_q.
Example C113_target_q_case : class_of demo_joint = KJoint (Some [1; 0; 1; 0]%Z) /\ shows demo_joint ATargetQ = Err ValueError /\
  shows (uses [Do (OpModel arm2)] demo_joint) ATargetQ = Err ValueError /\
  shows (uses [Do (OpModel arm4)] demo_joint) ATargetQ = Ok (VArray (tvec [0; 0]%R)).
Proof. repeat split; vm_compute; reflexivity. Qed.
(** [q_min] and [q_max] can be read exactly if they were given, or updated, or a binding was
    accepted; once both are there, they change only by their own updates. *)
Theorem C113_joint_limits_readable c us mk : constructed c -> Forall public us -> class_of c = KJointBarrier mk ->
  (is_ok (shows (uses us c) AQMin) = true <-> is_ok (shows c AQMin) = true \/ accepted_call sets_q_min (calls us) c = true) /\
  (is_ok (shows (uses us c) AQMax) = true <-> is_ok (shows c AQMax) = true \/ accepted_call sets_q_max (calls us) c = true).
Proof. exact (limits_readable c us mk). Qed.
Print Assumptions C113_joint_limits_readable.
Theorem C113_joint_limits c us mk lo hi : constructed c -> Forall public us -> class_of c = KJointBarrier mk ->
  shows c AQMin = Ok (VArray lo) -> shows c AQMax = Ok (VArray hi) ->
  exists lo' hi', last_accepted asks_q_min (calls us) c (Some lo) = Some lo' /\ shows (uses us c) AQMin = Ok (VArray lo') /\
                  last_accepted asks_q_max (calls us) c (Some hi) = Some hi' /\ shows (uses us c) AQMax = Ok (VArray hi').
Proof. exact (limits_shown c us mk lo hi). Qed.
Print Assumptions C113_joint_limits.
Example C113_joint_limits_case : exists c c', new_joint_barrier "limits" (tscalar 1) None 0%R None None None = Ok c /\
  new_joint_barrier "limits" (tscalar 1) None 0%R (Some (tvec [-1; -1]%R)) (Some (tvec [1; 1]%R)) None = Ok c' /\
  shows c AQMin = Err ValueError /\ is_ok (shows (uses [Do (OpModel arm2)] c) AQMin) = true /\
  shows c' AQMin = Ok (VArray (tvec [-1; -1]%R)) /\ shows c' AQMax = Ok (VArray (tvec [1; 1]%R)) /\
  shows (uses [Do (OpModel arm2); Look AQMax; Do (OpQMin (tvec [0; 0]%R)); Do (OpQMax (tvec [0]%R))] c') AQMin = Ok (VArray (tvec [0; 0]%R)) /\
  shows (uses [Do (OpModel arm2); Look AQMax; Do (OpQMin (tvec [0; 0]%R)); Do (OpQMax (tvec [0]%R))] c') AQMax = Ok (VArray (tvec [1; 1]%R)).
Proof. do 2 eexists. split; [reflexivity|]. split; [reflexivity|]. repeat split; vm_compute; reflexivity. Qed.
