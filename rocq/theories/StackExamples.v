(** Proofs of C121, continued: the batched examples. *)
From Verif Require Import Base Lin LinFacts Mjx Typing Component Problem SpecComponent SpecJoint SpecHistory SpecTyping SpecCollision SpecTree SpecShape SpecContact SpecSelf SpecValue SpecProblem SpecQP SpecFit SpecTrace SpecSetup.
From Verif Require Import BindThms2 ComponentFacts SetupFacts SetupFacts2 SetupFacts5 Conf JaxComponents LocalIK GlobalIK SpecMotion SpecLoop SpecSolve SpecGlobal SpecClosed SpecGLoop SpecAnyLoop ClosedThms2 AnyLoopThms AnyLoopThms2.
From Verif Require Import JaxTree SpecJaxTree SpecBatch SpecVmap SpecLanes LanesLoop LanesAny SpecStacks StackFacts StackCases StackThms.
Open Scope nat_scope.
#[local] Arguments update_model : simpl never.
#[local] Arguments jax_component : simpl never.
#[local] Arguments build_component : simpl never.
#[local] Arguments ready : simpl never.
#[local] Arguments easy : simpl never.

Lemma frame_stack m N c cost lm o t T : a_ext (c_at c) = XTask cost lm (TFrame o t) -> wf_tensor T -> t_shape T = [N; 7] -> takes_stack m N c (OpTargetFrame (FArr T)) /\ takes_stack m N c (OpTargetFrame (FSE3 T)).
Proof. intros E W S. unfold takes_stack. rewrite E. split; exists T; repeat split; assumption. Qed.
Lemma com_stack m N c cost lm t d T : a_ext (c_at c) = XTask cost lm (TCom t) -> a_dim (c_at c) = Z.of_nat d -> wf_tensor T -> t_shape T = [N; d] -> takes_stack m N c (OpTargetCom T).
Proof. intros E D W S. unfold takes_stack. rewrite E. exists T. repeat split; [exact W|]. now exists d. Qed.
Lemma com_dims n cost g lm ct : (new_com_task n cost g None lm None = Ok ct \/ new_com_task n cost g None lm (Some (mvec [1; 1; 1]%Z)) = Ok ct) -> a_dim (c_at ct) = Z.of_nat 3.
Proof.
  unfold new_com_task, init_task, init_component. intros [H|H]; cbn [bind mvec mk_shape List.length Nat.eqb negb] in H; (destruct (Nat.ltb 1 (ndim g)); [discriminate|]); cbn [bind] in H; (destruct (Rlt_dec lm 0); [discriminate|]); (destruct (Nat.ltb 2 (ndim cost)); [discriminate|]); cbn in H; injection H as <-; reflexivity.
Qed.
Lemma soft_easy m c : easy m c -> tame m c /\ soft_component c /\ (forall dt, mild dt c) /\ (forall q, in_limits m q c).
Proof. intros (A & B & C & D & _). auto. Qed.
Lemma go2_batches m b i lo hi k1 k2 k3 g1 g2 g3 g4 lm d ct ft jb feet L So dt N pre Ts q s : sound_model m -> has_object m OBody b i -> 0 < n_scalar m -> (lo <= 0)%R -> (0 <= hi)%R ->
  new_com_task "com_task" (tscalar k1) (tscalar g1) None lm None = Ok ct ->
  new_frame_task "body_orientation_task" (tscalar k2) (tscalar g2) b OBody None lm (Some (mvec [0; 0; 0; 1; 1; 1]%Z)) = Ok ft ->
  new_joint_barrier "jnt_range" (tscalar g3) None d None None None = Ok jb ->
  Forall2 (foot_task m k3 g4 lm) ["FL"; "FR"; "RL"; "RR"]%string feet ->
  (0 <= dt)%R -> (0 <= g3)%R -> (g3 * dt <= 1)%R -> sound_lib L m -> keeps_scalars L m -> (forall q, List.length q = m_nq m -> wf_data m (update L m q)) -> one_entry_each So ->
  Forall loop_call pre -> Forall keeps_limits pre ->
  Forall (fun p => (wf_tensor (fst p) /\ t_shape (fst p) = [N; 7]) /\ wf_tensor (snd p) /\ t_shape (snd p) = [N; 3]) Ts -> Ts <> [] -> (forall i, i < N -> List.length (q i) = m_nq m) ->
  let prog := setup m (tscalar lo) (tscalar hi) (ct :: ft :: jb :: feet) ++ pre in
  exists t tm tr qn, fst (set_vmap_dimension 0 (state prog)) = Ok t /\ set_axes go2_places t = Ok tm /\
    vmapped_loop L So m dt N tm (prog ++ [WCompile 0]) (map go2_turn Ts) q s tr qn /\
    forall i, i < N -> in_range m (q i) -> Forall (exact_turn L So m) (lane i tr) -> in_range m (qn i) /\ Forall (fun t => in_range m (fst (fst t) i)) tr.
Proof.
  intros Hm Hb Hn Hlo Hhi Hct Hft Hjb Hfe Hdt Hg Hgd HL Hks Hd Hone Hpre Hkp HTs Hne Hq. cbv zeta.
  inversion Hfe as [|? f1 ? ? [[i1 F1] F1'] Hf2 E E']; subst. inversion Hf2 as [|? f2 ? ? [[i2 F2] F2'] Hf3 E E']; subst. inversion Hf3 as [|? f3 ? ? [[i3 F3] F3'] Hf4 E E']; subst. inversion Hf4 as [|? f4 ? ? [[i4 F4] F4'] Hf5 E E']; subst. inversion Hf5; subst. clear Hfe Hf2 Hf3 Hf4 Hf5.
  destruct (com_any _ _ _ _ _ _ m Hct) as (C1 & C2 & C3 & (tc & C4)). destruct (frame_ready _ _ _ _ _ _ _ _ m i Hft I Hb) as (B1 & B2 & B3 & (ob & tb & B4)).
  destruct (limits_ready _ _ _ _ m Hjb Hn) as (J1 & J2 & _ & _ & _ & _ & J3).
  destruct (frame_ready _ _ _ _ _ _ _ _ m i1 F1' I F1) as (P1 & P2 & P3 & _). destruct (frame_ready _ _ _ _ _ _ _ _ m i2 F2' I F2) as (Q1 & Q2 & Q3 & _). destruct (frame_ready _ _ _ _ _ _ _ _ m i3 F3' I F3) as (R1 & R2 & R3 & _). destruct (frame_ready _ _ _ _ _ _ _ _ m i4 F4' I F4) as (S1 & S2 & S3 & _).
  apply squats_run with (jb := jb) (n := "jnt_range"%string) (g := g3) (sdg := d); auto.
  - reflexivity.
  - reflexivity.
  - now left.
  - now left.
  - cbn [map]. rewrite C2, B2, J2, P2, Q2, R2, S2. cbn. repeat constructor; cbn; intuition discriminate.
  - repeat (constructor; [assumption|]). constructor.
  - apply Forall_forall. intros ks Hin. apply in_map_iff in Hin as (p & <- & Hp). rewrite Forall_forall in HTs. destruct (HTs p Hp) as ((W1 & W2) & W3 & W4). split; [|intros x; cbn; tauto].
    constructor; [exists ft; split; [reflexivity|split; [symmetry; exact B2|now apply (frame_stack m N ft _ _ _ _ (fst p) B4)]]|]. constructor; [|constructor].
    exists ct. split; [reflexivity|]. split; [symmetry; exact C2|]. apply (com_stack m N ct _ _ _ 3 (snd p) C4); auto. now apply (com_dims _ _ _ _ _ (or_introl Hct)).
  - destruct Ts; [now elim Hne|discriminate].
  - intros q0 Hq0. split; [now apply Hd|]. repeat (constructor; [first [now apply J3|match goal with H : easy m ?c |- evaluates _ _ _ ?c => apply H end]|]). constructor.
  - cbn. auto.
  - intros c [<-|[<-|[<-|[<-|[<-|[<-|[<-|[]]]]]]]]; try (left; reflexivity); right; now apply soft_easy.
  - constructor; [exact Hlo|constructor].
  - constructor; [exact Hhi|constructor].
Qed.
Lemma alip_batches m s1 s2 s3 i1 i2 i3 lo hi k1 k2 k3 g1 g2 g3 g4 g5 lm d1 ct tt' jb lf rf eq L So dt N pre Ts q s : sound_model m ->
  has_object m OBody s1 i1 -> has_object m OBody s2 i2 -> has_object m OBody s3 i3 -> 0 < n_scalar m -> Forall eq_supported (m_eq_type m) -> (lo <= 0)%R -> (0 <= hi)%R ->
  new_com_task "com_task" (tscalar k1) (tscalar g1) None lm (Some (mvec [1; 1; 1]%Z)) = Ok ct ->
  new_frame_task "torso_task" (tscalar k2) (tscalar g2) s1 OBody None lm (Some (mvec [0; 0; 0; 1; 1; 1]%Z)) = Ok tt' ->
  new_joint_barrier "jnt_range" (tscalar g3) None d1 None None None = Ok jb ->
  new_frame_task "left_foot_task" (tscalar k3) (tscalar g4) s2 OBody None lm (Some (mvec [1; 1; 1; 1; 0; 1]%Z)) = Ok lf ->
  new_frame_task "right_foot_task" (tscalar k3) (tscalar g4) s3 OBody None lm (Some (mvec [1; 1; 1; 1; 0; 1]%Z)) = Ok rf ->
  new_model_equality "equality_constraint" (tscalar g5) false None = Ok eq ->
  (0 <= dt)%R -> (0 <= g3)%R -> (g3 * dt <= 1)%R -> sound_lib L m -> keeps_scalars L m ->
  (forall q, List.length q = m_nq m -> wf_data m (update L m q) /\ List.length (flagged (d_efc_pos (update L m q)) (d_efc_is_equality (update L m q))) = eq_total m) -> one_entry_each So ->
  Forall loop_call pre -> Forall keeps_limits pre ->
  Forall (fun p => stack_of N 3 (fst (fst p)) /\ stack_of N 7 (snd (fst p)) /\ stack_of N 7 (fst (snd p)) /\ stack_of N 7 (snd (snd p))) Ts -> Ts <> [] -> (forall i, i < N -> List.length (q i) = m_nq m) ->
  let prog := setup m (tscalar lo) (tscalar hi) [ct; tt'; jb; lf; rf; eq] ++ pre in
  exists t tm tr qn, fst (set_vmap_dimension 0 (state prog)) = Ok t /\ set_axes alip_places t = Ok tm /\
    vmapped_loop L So m dt N tm (prog ++ [WCompile 0]) (map alip_turn Ts) q s tr qn /\
    forall i, i < N -> in_range m (q i) -> Forall (exact_turn L So m) (lane i tr) -> in_range m (qn i) /\ Forall (fun t => in_range m (fst (fst t) i)) tr.
Proof.
  intros Hm H1 H2 H3 Hn He Hlo Hhi Hct Htt Hjb Hlf Hrf Heq Hdt Hg Hgd HL Hks Hd Hone Hpre Hkp HTs Hne Hq. cbv zeta.
  destruct (com_any _ _ _ _ _ _ m Hct) as (C1 & C2 & C3 & (tc & C4)). destruct (frame_ready _ _ _ _ _ _ _ _ m i1 Htt I H1) as (B1 & B2 & B3 & (ob & tb & B4)).
  destruct (limits_ready _ _ _ _ m Hjb Hn) as (J1 & J2 & _ & _ & _ & _ & J3). destruct (frame_ready _ _ _ _ _ _ _ _ m i2 Hlf I H2) as (P1 & P2 & P3 & (ol & tl' & P4)). destruct (frame_ready _ _ _ _ _ _ _ _ m i3 Hrf I H3) as (Q1 & Q2 & Q3 & (or' & tr' & Q4)).
  destruct (equality_any _ _ _ m Heq He) as (E1 & E2 & E3 & E4 & E5 & E6 & E7).
  apply squats_run with (jb := jb) (n := "jnt_range"%string) (g := g3) (sdg := d1); auto.
  - reflexivity.
  - reflexivity.
  - now left.
  - now left.
  - cbn [map]. rewrite C2, B2, J2, P2, Q2, E2. cbn. repeat constructor; cbn; intuition discriminate.
  - repeat (constructor; [assumption|]). constructor.
  - apply Forall_forall. intros ks Hin. apply in_map_iff in Hin as (p & <- & Hp). rewrite Forall_forall in HTs. destruct (HTs p Hp) as ((W1 & W2) & (W3 & W4) & (W5 & W6) & (W7 & W8)). split; [|intros x; cbn; tauto].
    constructor; [exists ct; split; [reflexivity|split; [symmetry; exact C2|apply (com_stack m N ct _ _ _ 3 _ C4); auto; now apply (com_dims _ _ _ _ _ (or_intror Hct))]]|].
    constructor; [exists tt'; split; [reflexivity|split; [symmetry; exact B2|now apply (frame_stack m N tt' _ _ _ _ _ B4)]]|].
    constructor; [exists lf; split; [reflexivity|split; [symmetry; exact P2|now apply (frame_stack m N lf _ _ _ _ _ P4)]]|].
    constructor; [exists rf; split; [reflexivity|split; [symmetry; exact Q2|now apply (frame_stack m N rf _ _ _ _ _ Q4)]]|constructor].
  - destruct Ts; [now elim Hne|discriminate].
  - intros q0 Hq0. destruct (Hd q0 Hq0) as [D1 D2]. split; [exact D1|]. repeat (constructor; [first [now apply J3|now apply E7|match goal with H : easy m ?c |- evaluates _ _ _ ?c => apply H end]|]). constructor.
  - cbn. auto.
  - intros c [<-|[<-|[<-|[<-|[<-|[<-|[]]]]]]]; try (left; reflexivity); right; try (now apply soft_easy); auto.
  - constructor; [exact Hlo|constructor].
  - constructor; [exact Hhi|constructor].
Qed.
Lemma heart_batches m s1 s2 s3 s4 s5 i1 i2 i3 i4 i5 lo hi k1 k2 k3 k4 g0 g1 g2 g3 g4 g5 lm d1 d2 dm b0 bs ids er ex ct tt' jb la ra lf rf sc L So dt N pre Ts q s : sound_model m ->
  has_object m OBody s1 i1 -> has_object m OBody s2 i2 -> has_object m OBody s3 i3 -> has_object m OSite s4 i4 -> has_object m OSite s5 i5 -> 0 < n_scalar m ->
  Forall2 (refers m) (b0 :: bs) ids -> Forall2 (refers2 m) er ex ->
  new_com_task "com_task" (tscalar k1) (tscalar g1) None lm (Some (mvec [1; 1; 0]%Z)) = Ok ct ->
  new_frame_task "torso_task" (tscalar k2) (tscalar g2) s1 OBody None lm (Some (mvec [0; 0; 0; 1; 1; 1]%Z)) = Ok tt' ->
  new_joint_barrier "jnt_range" (tscalar g0) None d1 None None None = Ok jb ->
  new_frame_task "left_arm_task" (tscalar k3) (tscalar g3) s2 OBody None lm (Some (mvec [1; 1; 1; 1; 1; 0]%Z)) = Ok la ->
  new_frame_task "right_arm_task" (tscalar k3) (tscalar g3) s3 OBody None lm (Some (mvec [1; 1; 1; 1; 1; 0]%Z)) = Ok ra ->
  new_frame_task "left_foot_task" (tscalar k4) (tscalar g4) s4 OSite None lm None = Ok lf ->
  new_frame_task "right_foot_task" (tscalar k4) (tscalar g4) s5 OSite None lm None = Ok rf ->
  new_self_collision "self_collision_barrier" (tscalar g5) None d2 dm (b0 :: bs) er (-1) = Ok sc ->
  (0 <= dt)%R -> (0 <= g0)%R -> (g0 * dt <= 1)%R -> (0 <= g5)%R -> (g5 * dt <= 1)%R -> sound_lib L m -> keeps_scalars L m ->
  (forall q, List.length q = m_nq m -> wf_data m (update L m q)) -> (forall ids ex ps, Forall2 (refers m) (b0 :: bs) ids -> Forall2 (refers2 m) er ex -> checks_exactly m ids ex ps -> ps <> [] /\ full_table (l_coll L) m ps) -> one_entry_each So ->
  Forall loop_call pre -> Forall keeps_limits pre ->
  Forall (fun p => stack_of N 7 (fst p) /\ stack_of N 7 (snd p)) Ts -> Ts <> [] -> (forall i, i < N -> List.length (q i) = m_nq m) ->
  let prog := setup m (tscalar lo) (tscalar hi) [ct; tt'; jb; la; ra; lf; rf; sc] ++ pre in let turns := map heart_turn Ts in
  exists t tm, fst (set_vmap_dimension 0 (state prog)) = Ok t /\ set_axes heart_places t = Ok tm /\
   ((exists tr qn, vmapped_loop L So m dt N tm (prog ++ [WCompile 0]) turns q s tr qn /\
     forall i, i < N -> in_range m (q i) -> Forall (exact_turn L So m) (lane i tr) -> Forall (possible_turn L m) (lane i tr) -> in_range m (qn i) /\ Forall (fun t => in_range m (fst (fst t) i)) tr) \/
    (exists i ts ks ts' tr q' pd, i < N /\ turns = ts ++ ks :: ts' /\ jitted_loop L So m dt (prog ++ [WCompile 0]) (rows_of i ts) (q i) (s i) tr q' /\
     compiled_by ((prog ++ [WCompile 0]) ++ calls_of (rows_of i ts) ++ map (as_row i) ks) 0 pd /\ (forall s', solve L So m (tvec q') s' (under_jit pd) = Err NonFinite) /\ idle_barrier L (update L m q') pd)).
Proof.
  intros Hm H1 H2 H3 H4 H5 Hn Hre Hex Hct Htt Hjb Hla Hra Hlf Hrf Hsc Hdt Hg Hgd Hg5 Hgd5 HL Hks Hd Hco Hone Hpre Hkp HTs Hne Hq. cbv zeta.
  destruct (com_any _ _ _ _ _ _ m Hct) as (C1 & C2 & C3 & _). destruct (frame_ready _ _ _ _ _ _ _ _ m i1 Htt I H1) as (B1 & B2 & B3 & _).
  destruct (limits_ready _ _ _ _ m Hjb Hn) as (J1 & J2 & J4 & J5 & J6 & J7 & J3). destruct (frame_ready _ _ _ _ _ _ _ _ m i2 Hla I H2) as (P1 & P2 & P3 & (ol & tl' & P4)). destruct (frame_ready _ _ _ _ _ _ _ _ m i3 Hra I H3) as (Q1 & Q2 & Q3 & (or' & tr' & Q4)).
  destruct (frame_ready _ _ _ _ _ _ _ _ m i4 Hlf I H4) as (R1 & R2 & R3 & _). destruct (frame_ready _ _ _ _ _ _ _ _ m i5 Hrf I H5) as (S1 & S2 & S3 & _).
  destruct (crowd_ready _ _ _ _ _ _ _ _ _ _ m Hsc Hm Hre Hex) as (K1 & K2 & K3 & K4 & K5 & (sa & K6 & K7 & K8 & K9)).
  set (cs := [ct; tt'; jb; la; ra; lf; rf; sc]).
  assert (all : forall P : comp -> Prop, P ct -> P tt' -> P jb -> P la -> P ra -> P lf -> P rf -> P sc -> Forall P cs) by (intros; unfold cs; repeat (constructor; [assumption|]); constructor).
  assert (A1 : NoDup (map nm cs)). { unfold cs. cbn [map]. rewrite C2, B2, J2, P2, Q2, R2, S2, K2. repeat constructor; cbn; intuition discriminate. }
  assert (A2 : Forall (ready m) cs) by (apply all; assumption).
  assert (A3 : Forall (fun ks => stack_turn m N cs ks /\ forall p, In p (map place ks) <-> In p heart_places) (map heart_turn Ts)).
  { apply Forall_forall. intros ks Hin. apply in_map_iff in Hin as (p & <- & Hp). rewrite Forall_forall in HTs. destruct (HTs p Hp) as ((W1 & W2) & (W3 & W4)). split; [|intros x; cbn; tauto].
    constructor; [exists la; split; [reflexivity|split; [symmetry; exact P2|now apply (frame_stack m N la _ _ _ _ _ P4)]]|].
    constructor; [exists ra; split; [reflexivity|split; [symmetry; exact Q2|now apply (frame_stack m N ra _ _ _ _ _ Q4)]]|constructor]. }
  assert (A4 : map heart_turn Ts <> []) by (destruct Ts; [now elim Hne|discriminate]).
  assert (A5 : forall q, List.length q = m_nq m -> wf_data m (update L m q) /\ Forall (evaluates L m q) cs).
  { intros q0 Hq0. split; [now apply Hd|]. apply all; try (now apply J3); try (match goal with H : easy m ?c |- evaluates _ _ _ ?c => apply H end).
    unfold evaluates. rewrite K6, K7, K8, K9. intros ids' ex' ps U1 U2 U3. cbn in U1. destruct (Hco ids' ex' ps U1 U2 U3) as [V1 V2]. split; [exact V1|]. split; [exact V2|]. lia. }
  assert (A6 : Forall (mild dt) cs) by (apply all; try (now apply J6); try (now apply K4); match goal with H : easy m ?c |- mild _ ?c => apply H end).
  assert (A7 : forall x, Forall (in_limits m x) cs <-> in_range m x).
  { intros x. rewrite <- J7. split; [intros H; rewrite Forall_forall in H; apply H; unfold cs; cbn; auto|]. intros H. apply all; auto; match goal with H : easy m ?c |- in_limits _ _ ?c => apply H end. }
  destruct (stacks_outcome m (tscalar lo) (tscalar hi) cs Hm eq_refl eq_refl ltac:(now left) ltac:(now left) A1 A2 N heart_places pre (map heart_turn Ts) Hpre A3 A4 L So dt q s HL A5 Hone Hq) as (t & tm & E1 & E2 & [(tr & qn & R)|X]).
  - exists t, tm. split; [exact E1|]. split; [exact E2|]. left. exists tr, qn. split; [exact R|]. intros i Hi Hin He Hpo.
    destruct (stacks_safe m (tscalar lo) (tscalar hi) cs Hm eq_refl eq_refl ltac:(now left) ltac:(now left) A1 A2 N heart_places pre (map heart_turn Ts) Hpre A3 A4 L So dt q s HL A5 Hq t tm tr qn E1 E2 R Hkp A6 Hdt Hks i Hi ltac:(now apply A7) He (or_introl Hpo)) as [U1 U2].
    split; [now apply A7|]. eapply Forall_impl; [|exact U2]. intros x Hx. now apply A7.
  - exists t, tm. split; [exact E1|]. split; [exact E2|]. right. exact X.
Qed.
Lemma output_batches m s0 i0 lo hi k g1 g2 g3 lm d0 d1 px ft pb jb L So dt N pre Ts q s : sound_model m -> has_object m OBody s0 i0 -> 0 < n_scalar m ->
  new_frame_task "ee_task" (tscalar k) (tscalar g1) s0 OBody None lm None = Ok ft ->
  new_position_barrier "ee_barrier" (tscalar g2) s0 OBody None (Some (tscalar px)) "max" None d0 (Some (mvec [1; 0; 0]%Z)) = Ok pb ->
  new_joint_barrier "jnt_range" (tscalar g3) None d1 None None None = Ok jb ->
  sound_lib L m -> (forall q, List.length q = m_nq m -> wf_data m (update L m q)) -> one_entry_each So -> Forall loop_call pre ->
  Forall (stack_of N 7) Ts -> Ts <> [] -> (forall i, i < N -> List.length (q i) = m_nq m) ->
  let prog := setup m (tscalar lo) (tscalar hi) [ft; pb; jb] ++ pre in let turns := map ee_turn Ts in
  exists t tm, fst (set_vmap_dimension 0 (state prog)) = Ok t /\ set_axes ee_place t = Ok tm /\
   ((exists tr qn, vmapped_loop L So m dt N tm (prog ++ [WCompile 0]) turns q s tr qn) \/
    (exists i ts ks ts' tr q' pd, i < N /\ turns = ts ++ ks :: ts' /\ jitted_loop L So m dt (prog ++ [WCompile 0]) (rows_of i ts) (q i) (s i) tr q' /\
     compiled_by ((prog ++ [WCompile 0]) ++ calls_of (rows_of i ts) ++ map (as_row i) ks) 0 pd /\ (forall s', solve L So m (tvec q') s' (under_jit pd) = Err NonFinite) /\ idle_barrier L (update L m q') pd)).
Proof.
  intros Hm H0 Hn Hft Hpb Hjb HL Hd Hone Hpre HTs Hne Hq. cbv zeta.
  destruct (frame_ready _ _ _ _ _ _ _ _ m i0 Hft I H0) as (B1 & B2 & B3 & (ob & tb & B4)). destruct (limits_ready _ _ _ _ m Hjb Hn) as (J1 & J2 & _ & _ & _ & _ & J3). destruct (wall_ready _ _ _ _ _ _ m i0 Hpb H0) as (W1 & W2 & _ & _ & W3).
  apply stacks_outcome; auto.
  - reflexivity.
  - reflexivity.
  - now left.
  - now left.
  - cbn [map]. rewrite B2, W2, J2. repeat constructor; cbn; intuition discriminate.
  - apply Forall_forall. intros ks Hin. apply in_map_iff in Hin as (p & <- & Hp). rewrite Forall_forall in HTs. destruct (HTs p Hp) as [V1 V2]. split; [|intros x; cbn; tauto].
    constructor; [exists ft; split; [reflexivity|split; [symmetry; exact B2|now apply (frame_stack m N ft _ _ _ _ _ B4)]]|constructor].
  - destruct Ts; [now elim Hne|discriminate].
  - intros q0 Hq0. split; [now apply Hd|]. constructor; [apply B3|]. constructor; [apply W3|]. constructor; [apply J3|constructor].
Qed.
