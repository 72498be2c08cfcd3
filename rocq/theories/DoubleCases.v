(** C127, C128, C129: the crane, on which the motion with doubled turning does what is asked. *)
From Coq Require Import Lia.
From Verif Require Import Base Lin LinFacts Mjx Typing Component Problem SpecComponent SpecJoint SpecHistory SpecMotion SpecConf Rot Conf FrameJac JaxComponents LocalIK Witness SpecTree SpecShape SpecValue SpecDeriv SpecQP SpecSolve SpecDescent SpecFit SpecProblem SpecDrift.
From Verif Require Import BindCases ConfCases ConfFacts4 DerivFacts DerivThms DerivThms2 DerivCases LogCases QPCases DescentFacts AwayCases SolveThms DriftCases DriftSolve CrossThms CrossCases SlipThms SlipCases.
Open Scope R_scope.

Lemma twice_of a b c d : turns_twice rail [a; b; c; d] [a; 2 * b; 2 * c; 2 * d].
Proof. replace [a; b; c; d] with [a; 2 * b / 2; 2 * c / 2; 2 * d / 2] by (repeat (apply f_equal2; [field|]); reflexivity). apply crane_twice. Qed.
Lemma constant_returns L m v q v0 pd s w : solve L (fun _ => mkSol v [] []) m (tvec q) v0 pd = Ok (s, w) -> s = mkSol v [] [] /\ w = v.
Proof.
  unfold solve, solve_from_data. cbn [tvec t_shape t_data]. destruct (Nat.eqb _ _); [|discriminate]. destruct (assemble _ _ _ _); [|discriminate]. cbn [bind sol_primal]. intros E. injection E as <- <-. split; reflexivity.
Qed.
(** A program for the crane, at [up], with a solver that returns [v]. *)
Definition crane_run D os pd v : Prop := let L := crane D in let d := update L rail up in let So := fun _ => mkSol v [] [] in
  tidy rail os /\ compiled_by os 0 pd /\ sound_lib L rail /\ List.length up = m_nq rail /\ wf_data rail d /\ Forall (accepted L d) (comps_of pd) /\ exact_at L So rail pd d /\ (exists u, admissible L d pd u) /\
  solve L So rail (tvec up) [] pd = Ok (mkSol v [] [], v) /\ wf_joints rail /\ jd_model pd = rail /\ normalised rail up /\ d_qpos d = up.
Lemma crane_runs D os pd v : sound_jac D -> shaped_jac D -> tidy rail os -> compiled_by os 0 pd -> jd_model pd = rail -> Forall (accepted (crane D) (update (crane D) rail up)) (comps_of pd) ->
  best (crane D) (update (crane D) rail up) pd v -> (forall j J, In j (comps_of pd) -> is_barrier j = true -> jacobian (crane D) j (update (crane D) rail up) = Ok J -> frob2 J <> 0) -> crane_run D os pd v.
Proof.
  intros HD HS Ht Hc Em Ha B N. assert (X : exact_at (crane D) (fun _ => mkSol v [] []) rail pd (update (crane D) rail up)) by exact (constant_exact (crane D) rail os 0 pd _ _ Ht Hc (crane_sound D HS) (crane_wf D up eq_refl) Ha B).
  unfold crane_run. cbv zeta. split; [exact Ht|]. split; [exact Hc|]. split; [now apply crane_sound|]. split; [reflexivity|]. split; [exact (crane_wf D up eq_refl)|]. split; [exact Ha|]. split; [exact X|]. split; [eexists; exact (proj1 B)|].
  split; [|split; [apply crane_up|split; [exact Em|split; [apply crane_up|reflexivity]]]].
  destruct (program_best (crane D) rail os 0 pd Ht Hc (crane_sound D HS) (fun _ => mkSol v [] []) (tvec up) [] eq_refl (crane_wf D up eq_refl) Ha X) as [(s & w & E & _)|(_ & j & J & Hj & Bj & EJ & Z)]; [eexists; exact (proj1 B)| |exfalso; exact (N j J Hj Bj EJ Z)].
  pose proof (constant_returns _ _ _ _ _ _ _ _ E) as [-> ->]. exact E.
Qed.
Lemma drift_double D : sound_jac D -> shaped_jac D -> crane_run D drift_prog drift_pd [- (50 / 7); 0; 38 / 7; 0] /\ turns_twice rail [- (50 / 7); 0; 38 / 7; 0] [- (50 / 7); 2 * 0; 2 * (38 / 7); 2 * 0] /\
  comps_of drift_pd = [reach] /\ j_model reach = rail /\ automatic reach /\ kinematic (crane D) reach /\ smooth (crane D) reach 3 up /\ seeks reach = true /\ uniform 2 reach /\ nonneg_weights reach /\ List.length (j_gain reach) = 3%nat /\
  admissible (crane D) (update (crane D) rail up) drift_pd (vzero 4).
Proof.
  intros HD HS. destruct drift_compiled as (Hc & Ec & Em & _). destruct reach_ok as (_ & _ & Er & Hu & W & Ex & HW). destruct (reach_smooth D) as [HM HJ].
  split; [apply crane_runs; auto; [exact drift_tidy|apply reach_accepted|exact (proj1 (drift_best D HD))|rewrite Ec; intros j J [<-|[]] Bj; unfold is_barrier in Bj; rewrite Ex in Bj; discriminate]|].
  split; [apply twice_of|]. split; [exact Ec|]. split; [exact Er|]. split; [unfold automatic; now rewrite Ex|]. split; [apply kinematic_position; [intros y; repeat split|left; do 5 eexists; exact Ex]|].
  split; [split; [rewrite Er; intros y _; eexists; split; [apply reach_value|reflexivity]|exists slopes; split; assumption]|].
  split; [unfold seeks; now rewrite Ex|]. split; [exact Hu|]. split; [vm_compute; auto|]. split; [reflexivity|]. apply drift_box; lra.
Qed.
Lemma cross_double D : sound_jac D -> shaped_jac D -> crane_run D cross_prog cross_pd [- (50 / 7); 0; 38 / 7; 0] /\ turns_twice rail [- (50 / 7); 0; 38 / 7; 0] [- (50 / 7); 2 * 0; 2 * (38 / 7); 2 * 0] /\
  In fence (comps_of cross_pd) /\ j_model fence = rail /\ automatic fence /\ kinematic (crane D) fence /\ smooth (crane D) fence 1 up /\ is_barrier fence = true /\ j_gain_fn fence 0 = 0 /\ nth 0 (value_at (crane D) fence up) 0 = 0.
Proof.
  intros HD HS. destruct cross_compiled as (Hc & Ec & Em & _). destruct fence_ok as (_ & Er & _ & Ef & _). destruct reach_ok as (_ & _ & _ & _ & W & Ex & _). destruct (fence_auto D) as [Ha Hk]. destruct (fence_smooth D) as (Hs & _).
  split; [apply crane_runs; auto; [exact cross_tidy|apply cross_accepted|exact (proj1 (cross_best D HD))|]|].
  { rewrite Ec. intros j J [<-|[<-|[]]] Bj EJ; [unfold is_barrier in Bj; rewrite Ex in Bj; discriminate|]. destruct (fence_rates D HD) as (K & EK & NK & _). rewrite EK in EJ. apply Ok_inj in EJ. now subst J. }
  split; [apply twice_of|]. split; [rewrite Ec; right; now left|]. split; [exact Er|]. split; [exact Ha|]. split; [exact Hk|]. split; [exact Hs|]. split; [unfold is_barrier; now rewrite Ef|]. split; [reflexivity|]. unfold value_at. rewrite Er, fence_now. reflexivity.
Qed.
Lemma slip_double D : sound_jac D -> shaped_jac D -> crane_run D slip_prog slip_pd [- (50 / 7); 0; 24 / 7; 0] /\ turns_twice rail [- (50 / 7); 0; 24 / 7; 0] [- (50 / 7); 2 * 0; 2 * (24 / 7); 2 * 0] /\
  In tie (comps_of slip_pd) /\ j_model tie = rail /\ automatic tie /\ kinematic (crane D) tie /\ smooth (crane D) tie 1 up /\ is_hard tie = true /\ j_gain_fn tie 0 = 0 /\ nth 0 (value_at (crane D) tie up) 0 = 0.
Proof.
  intros HD HS. destruct slip_compiled as (Hc & Ec & Em & _). destruct tie_ok as (Er & _ & _ & W' & Ef). destruct reach_ok as (_ & _ & _ & _ & W & Ex & _). destruct (tie_auto D) as [Ha Hk]. destruct (tie_smooth D) as (Hs & _).
  split; [apply crane_runs; auto; [exact slip_tidy|apply slip_accepted|exact (proj1 (slip_best D HD))|]|].
  { rewrite Ec. intros j J [<-|[<-|[]]] Bj _; [unfold is_barrier in Bj; rewrite Ex in Bj; discriminate|unfold is_barrier in Bj; rewrite Ef in Bj; discriminate]. }
  split; [apply twice_of|]. split; [rewrite Ec; right; now left|]. split; [exact Er|]. split; [exact Ha|]. split; [exact Hk|]. split; [exact Hs|]. split; [unfold is_hard; now rewrite Ef|]. split; [reflexivity|]. unfold value_at. rewrite Er, tie_now. reflexivity.
Qed.
