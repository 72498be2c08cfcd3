(** C82: batches of targets and limits under vmap. *)
From Verif Require Import Base Lin Mjx Typing Component Problem SpecComponent SpecProblem SpecQP JaxTree SpecJaxTree ProbThms SpecBatch BatchThms.
Open Scope nat_scope.

(** ** C82.  After accepted batched calls, every named place of the template can be
    given axis 0, and lane [i] of the data is exactly what compiles when each call is
    made with row [i] only: both as compiled, and as a vmapped function sees it. *)
Theorem C82_lanes os ks N pi pd t : Forall legal os -> batch N pi ks (state os) ->
  compiled_by (os ++ map as_step ks) pi pd -> fst (set_vmap_dimension pi (state (os ++ map as_step ks))) = Ok t ->
  exists t', set_axes (map place ks) t = Ok t' /\
    forall i, i < N -> exists pd', compiled_by (os ++ map (as_row i) ks) pi pd' /\
      sample (slice i) t' (data_object pd) = data_object pd' /\
      sample (slice i) t' (data_object (under_jit pd)) = data_object (under_jit pd').
Proof. exact (vmap_lanes os ks N pi pd t). Qed.
Print Assumptions C82_lanes.
(** Rows are arrays of the expected shape and together they are the batch. *)
Theorem C82_rows N t s : wf_tensor t -> t_shape t = N :: s ->
  (forall i, i < N -> wf_tensor (row i t) /\ t_shape (row i t) = s) /\ List.concat (map (fun i => t_data (row i t)) (seq 0 N)) = t_data t.
Proof. intros H1 H2. exact (conj (fun i Hi => row_array i N t s H1 H2 Hi) (rows_cover N t s H1 H2)). Qed.
Print Assumptions C82_rows.
(** The tree seen in a lane determines the problem data. *)
Theorem C82_lane_is_one_problem pd pd' : data_object pd = data_object pd' -> pd = pd'.
Proof. exact (data_object_inj pd pd'). Qed.
Print Assumptions C82_lane_is_one_problem.
(** Two targets for a position task and for a joint task of one problem. *)
Example C82_case : Forall legal demo_prog /\ batch 2 0 two_targets (state demo_prog) /\
  exists pd t t', compiled_by (demo_prog ++ map as_step two_targets) 0 pd /\ fst (set_vmap_dimension 0 (state (demo_prog ++ map as_step two_targets))) = Ok t /\
    set_axes (map place two_targets) t = Ok t' /\
    at_path ["components"; "reach"; "target_pos"]%string (sample (slice 1) t' (data_object pd)) = Some (PArr (tvec [4; 5; 6]%R)) /\
    at_path ["components"; "hold"; "target_q"]%string (sample (slice 1) t' (data_object pd)) = Some (PArr (tvec [9; 10]%R)) /\
    at_path ["components"; "hold"; "target_q"]%string (sample (slice 0) t' (data_object pd)) = Some (PArr (tvec [7; 8]%R)).
Proof. exact batch_case. Qed.
