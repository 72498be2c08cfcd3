(** C77: components in the order a jitted function sees them. *)
From Verif Require Import Base Lin Mjx Typing Component Problem SpecComponent SpecProblem JaxComponents LocalIK GlobalIK SpecQP SpecGlobal QPCases FitCases GlobalCases JaxTree JitFacts.
From Coq Require Import Permutation Sorted.
Open Scope nat_scope.

(** Same entries, now in alphabetical order; nothing else changes. *)
Theorem C77_jit_sorts pd : Permutation (jd_comps pd) (jd_comps (under_jit pd)) /\ jd_model (under_jit pd) = jd_model pd /\ jd_vmin (under_jit pd) = jd_vmin pd /\ jd_vmax (under_jit pd) = jd_vmax pd /\
  LocallySorted (fun x y => String.leb (fst x) (fst y) = true) (jd_comps (under_jit pd)).
Proof. exact (jit_entries pd). Qed.
Print Assumptions C77_jit_sorts.
Theorem C77_local L sm pd d Q : m_nv sm = m_nv (jd_model pd) ->
  List.length (jd_vmin pd) = m_nv (jd_model pd) -> List.length (jd_vmax pd) = m_nv (jd_model pd) ->
  Forall (well_shaped L (m_nv (jd_model pd)) d) (comps_of pd) ->
  assemble L sm pd d = Ok Q -> exists Q', assemble L sm (under_jit pd) d = Ok Q' /\ qp_P Q' = qp_P Q /\ qp_c Q' = qp_c Q /\
    Permutation (row_pairs (qp_G Q) (qp_h Q)) (row_pairs (qp_G Q') (qp_h Q')) /\ Permutation (eq_rows (qp_eq Q)) (eq_rows (qp_eq Q')) /\
    forall v, optimal (m_nv (jd_model pd)) Q v <-> optimal (m_nv (jd_model pd)) Q' v.
Proof. exact (jit_qp L sm pd d Q). Qed.
Print Assumptions C77_local.
Theorem C77_global L q pd x : loss_fn L q pd = Ok x <-> loss_fn L q (under_jit pd) = Ok x.
Proof. exact (jit_loss L q pd x). Qed.
Print Assumptions C77_global.
Theorem C77_global_any_order L q pd pd' : jd_model pd' = jd_model pd -> Permutation (comps_of pd) (comps_of pd') -> forall x, loss_fn L q pd = Ok x <-> loss_fn L q pd' = Ok x.
Proof. exact (loss_order L q pd pd'). Qed.
Print Assumptions C77_global_any_order.
(** The components of [qp_demo] added in the opposite order come back in the order of
    [qp_demo]; the global problem [far_pd] likewise. *)
Definition rev_prog : list wop :=
  [WNewProblem arm2e (tscalar (-1)) (tvec [2; 3]%R); WNewComp hold_task; WNewComp limits_bar; WNewComp hard_eq; WNewComp soft_eq;
   WAdd 0 3; WAdd 0 2; WAdd 0 1; WAdd 0 0].
Example C77_case : exists pd, compiled_by rev_prog 0 pd /\ map fst (jd_comps pd) = ["soft"; "loop"; "limits"; "hold"]%string /\
  under_jit pd = qp_demo /\ (forall L, Forall (well_shaped L (m_nv (jd_model pd)) qp_data) (comps_of pd)) /\
  exists x, loss_fn even_lib [0]%R far_pd = Ok x.
Proof.
  eexists. split; [vm_compute; reflexivity|]. split; [reflexivity|]. split; [reflexivity|]. split; [|rewrite far_loss; eauto].
  intros L. exact (Forall_rev (qp_demo_shaped L)).
Qed.
