(** Proofs of C122, continued: batches run. *)
From Verif Require Import Base Lin LinFacts Mjx Typing Component Problem SpecComponent SpecJoint SpecHistory SpecTyping SpecCollision SpecTree SpecShape SpecContact SpecSelf SpecValue SpecProblem SpecQP SpecFit SpecTrace SpecSetup.
From Verif Require Import ProblemFacts FitFacts FitFacts3 BindThms2 ComponentFacts SetupFacts SetupFacts2 SetupFacts5 Conf JaxComponents LocalIK GlobalIK SpecMotion SpecLoop SpecSolve SpecGlobal GlobalFacts GlobalFacts2 SpecClosed SpecGLoop GLoopThms SpecAnyLoop ClosedThms ClosedThms2 AnyLoopThms AnyLoopThms2.
From Verif Require Import JaxTree SpecJaxTree JitFacts SpecBatch SpecVmap SpecLanes LanesLoop LanesRun LanesAny SpecStacks StackFacts StackCases StackThms SpecGLanes GLanesFacts.
From Coq Require Import Permutation.
Open Scope nat_scope.
#[local] Arguments update_model : simpl never.
#[local] Arguments jax_component : simpl never.
#[local] Arguments build_component : simpl never.
#[local] Arguments step : simpl never.

Section Thms.
Variables (m : mjmodel) (lo hi : tensor) (cs : list comp).
Hypothesis (Hm : sound_model m) (Wl : wf_tensor lo) (Wh : wf_tensor hi) (Fl : limit_fits m lo) (Fh : limit_fits m hi) (Nd : NoDup (map nm cs)) (Hr : Forall (SpecStacks.ready m) cs).
Let prog := setup m lo hi cs.
Variables (L : lib) (grad : gradient) (O : optimizer) (dt : R) (k : nat).
Hypothesis (HL : sound_lib L m) (Hd : forall q, List.length q = m_nq m -> wf_data m (update L m q) /\ Forall (evaluates L m q) cs) (Hg : traces grad).

Lemma gjit_loss os q : Forall loop_call os -> Forall (fun c => ~ constraint_component c) cs -> List.length q = m_nq m ->
  exists pd x, compiled_by (prog ++ os) 0 pd /\ loss_fn L q (under_jit pd) = Ok x.
Proof.
  intros Ho Hnc Hq. destruct (ready_parts m cs Hr) as (Hc & Hw & Hs & Hpl). destruct (Hd q Hq) as [Hd1 Hd2].
  destruct (gturn_problem m lo hi cs Hm Wl Wh Hc Hw Fl Fh Nd Hs Hpl os Ho) as (pd & Q1 & Q2 & Q3 & Q4 & Q5).
  destruct (program_loss L m (prog ++ os) 0 pd q Q2 Q1 HL Hd1) as (xs & _ & E); [now apply Q4|exact (no_constraints cs _ Q5 Hnc)|]. exists pd, (total_of xs). split; [exact Q1|]. exact (proj1 (JitFacts.jit_loss L q pd _) E).
Qed.
Lemma gjit_turn os q st : step_keeps_length O -> Forall loop_call os -> Forall (fun c => ~ constraint_component c) cs -> List.length q = m_nq m ->
  exists pd q1 v st1, compiled_by (prog ++ os) 0 pd /\ attempts L grad O m dt (under_jit pd) (S k) q st q1 v st1 /\ List.length q1 = m_nq m.
Proof.
  intros Hk Ho Hnc Hq. destruct (gjit_loss os q Ho Hnc Hq) as (pd & x & Hpd & E). destruct Hg as [Ht _].
  destruct (Ht (fun y => loss_fn L y (under_jit pd)) q (ex_intro _ _ E)) as (g & Eg & Lg).
  assert (Lf : List.length (fst (fed O g (S k) st)) = List.length g). { clear -Hk. revert st. induction k as [|j IH]; intros st; [apply Hk|]. rewrite fed_S. apply IH. }
  exists pd, (vadd q (fst (fed O g (S k) st))), (map (fun x => x / dt)%R (fst (fed O g (S k) st))), (snd (fed O g (S k) st)). split; [exact Hpd|]. split.
  - apply attempts_iff. split; [exact Hq|]. exists g. auto.
  - unfold vadd, vmap2. rewrite map_length, combine_length. rewrite Lf, Lg. lia.
Qed.
Lemma gjit_runs turns : step_keeps_length O -> Forall (fun c => ~ constraint_component c) cs -> Forall (Forall loop_call) turns -> forall os q st, Forall loop_call os -> List.length q = m_nq m ->
  exists tr qn, jitted_gloop L grad O m dt (S k) (prog ++ os) turns q st tr qn.
Proof.
  intros Hk Hnc. induction turns as [|o turns IH]; intros Hts os q st Ho Hq; [exists [], q; constructor|].
  assert (Ho' : Forall loop_call (os ++ o)) by (apply Forall_app; split; [exact Ho|exact (Forall_inv Hts)]).
  destruct (gjit_turn (os ++ o) q st Hk Ho' Hnc Hq) as (pd & q1 & v & st1 & Hpd & Hso & L1).
  destruct (IH (Forall_inv_tail Hts) ((os ++ o) ++ [WCompile 0]) q1 st1) as (tr & qn & C); [|exact L1|].
  { apply Forall_app. split; [exact Ho'|]. repeat constructor. }
  exists ((q, under_jit pd, v) :: tr), qn. apply (jitted_gturn L grad O m dt (S k) (prog ++ os) o turns q st pd v q1 st1 tr qn); [|exact Hso|].
  - rewrite <- app_assoc. exact Hpd.
  - rewrite <- !app_assoc. rewrite <- !app_assoc in C. exact C.
Qed.
Lemma gjit_fails os q st : Forall loop_call os -> Exists constraint_component cs -> List.length q = m_nq m ->
  exists pd, compiled_by (prog ++ os) 0 pd /\ gsolve L grad O m dt (tvec q) st (under_jit pd) = Err NotImplementedError.
Proof.
  intros Ho Hnc Hq. destruct (ready_parts m cs Hr) as (Hc & Hw & Hs & Hpl). destruct (Hd q Hq) as [Hd1 Hd2]. destruct Hg as [_ Ht].
  destruct (gturn_problem m lo hi cs Hm Wl Wh Hc Hw Fl Fh Nd Hs Hpl os Ho) as (pd & Q1 & Q2 & Q3 & Q4 & Q5). exists pd. split; [exact Q1|].
  assert (A : Forall (accepted L (update L m q)) (comps_of pd)) by now apply Q4.
  destruct (program_fits L m (prog ++ os) 0 pd _ Q2 Q1 HL Hd1 A) as [F _].
  assert (F' : Forall (fun j => exists (k0 : nat) e (J : mat), JaxComponents.call L j (update L m q) = Ok e /\ List.length e = List.length (j_gain j)) (comps_of (under_jit pd))).
  { eapply Permutation_Forall; [apply jit_comps|]. eapply Forall_impl; [|exact F]. intros j (k0 & e & J & _ & He & Hl & _ & _ & Hg0 & _). exists k0, e, J. split; [exact He|congruence]. }
  assert (X : Exists (fun e : string * jaxc => is_constraint (snd e) = true) (jd_comps (under_jit pd))).
  { apply Exists_exists in Hnc as (c & Ic & Cc). apply In_nth_error in Ic as [i Hi]. destruct (Forall2_nth _ _ _ _ _ Q5 Hi) as (j & Ej & K). unfold comps_of in Ej. rewrite nth_error_map in Ej.
    destruct (nth_error (jd_comps pd) i) as [e|] eqn:Ee; [|discriminate]. injection Ej as <-. apply Exists_exists. exists e. split; [|now apply (class_constraint c)].
    cbn [under_jit jd_comps]. eapply Permutation_in; [apply ssort_perm|]. eapply nth_error_In; eauto. }
  destruct (first_constraint _ X) as (js1 & n & j & js2 & Ejs & Cj & Nc).
  assert (Y : exists xs, Forall2 (contributes L (update L (jd_model (under_jit pd)) q)) (map snd js1) xs).
  { cbn [under_jit jd_model]. rewrite Q3. unfold comps_of in F'. rewrite Ejs, map_app in F'. apply Forall_app in F' as [F1 _]. clear -F1 Nc. induction js1 as [|[n1 j1] js1 IH]; [exists []; constructor|]. cbn in F1. inversion F1 as [|? ? G1 G2]; subst. inversion Nc; subst.
    destruct IH as [xs H']; auto. destruct G1 as (k0 & e & J & He & Hl). eexists (_ :: xs). cbn [map snd]. constructor; [|exact H']. exists e. split; [exact He|]. split; [exact Hl|]. split; [assumption|reflexivity]. }
  destruct Y as [xs Y]. pose proof (loss_constraint L q (under_jit pd) js1 n j js2 xs Ejs Y Cj) as E. unfold gsolve. cbn [t_shape t_data tvec]. rewrite Hq, Nat.eqb_refl. now rewrite (Ht (fun x => loss_fn L x (under_jit pd)) q _ E).
Qed.

Variables (N : nat) (pre : list wop) (q : nat -> vec) (st : nat -> o_state O).
Hypothesis (Hpre : Forall loop_call pre) (Hq : forall i, i < N -> List.length (q i) = m_nq m).
Lemma pre_loops : Forall loop_call (pre ++ [WCompile 0]).
Proof. apply Forall_app. split; [exact Hpre|repeat constructor]. Qed.

Lemma gstacks_run places turns : step_keeps_length O -> Forall (fun c => ~ constraint_component c) cs -> Forall (fun ks => stack_turn m N cs ks /\ forall p, In p (map place ks) <-> In p places) turns -> turns <> [] ->
  exists t tm tr qn, fst (set_vmap_dimension 0 (state (prog ++ pre))) = Ok t /\ set_axes places t = Ok tm /\
  vmapped_gloop L grad O m dt (S k) N tm ((prog ++ pre) ++ [WCompile 0]) turns q st tr qn /\
  forall i, i < N -> jitted_gloop L grad O m dt (S k) ((prog ++ pre) ++ [WCompile 0]) (rows_of i turns) (q i) (st i) (lane i tr) (qn i).
Proof.
  intros Hk Hnc Ht Hne. destruct (ready_parts m cs Hr) as (Hc & Hw & Hs & Hpl). destruct (stacks_ready m lo hi cs Hm Wl Wh Fl Fh Nd Hr N places pre turns Hpre Ht Hne) as ((t & tm & E1 & E2) & St & V & _).
  pose proof (prog_legal m lo hi cs Hc pre Hpre) as Lg.
  destruct (glanes_are_loops L grad O m dt k N (prog ++ pre) t places tm turns q st Lg E1 E2 St) as [A B].
  destruct B as (tr & qn & R).
  { intros i Hi. destruct (gjit_runs (rows_of i turns) Hk Hnc (rows_calls N places i turns _ Hi St V) (pre ++ [WCompile 0]) (q i) (st i) pre_loops (Hq i Hi)) as (tr & qn & R). rewrite (app_assoc prog) in R. eauto. }
  exists t, tm, tr, qn. split; [exact E1|]. split; [exact E2|]. split; [exact R|]. intros i Hi. exact (A tr qn R i Hi).
Qed.
Lemma gstacks_stop places turns t tm : 0 < N -> Exists constraint_component cs -> Forall (fun ks => stack_turn m N cs ks /\ forall p, In p (map place ks) <-> In p places) turns -> turns <> [] ->
  fst (set_vmap_dimension 0 (state (prog ++ pre))) = Ok t -> set_axes places t = Ok tm -> forall tr qn, ~ vmapped_gloop L grad O m dt (S k) N tm ((prog ++ pre) ++ [WCompile 0]) turns q st tr qn.
Proof.
  intros HN Hx Ht Hne E1 E2 tr qn R. destruct (ready_parts m cs Hr) as (Hc & Hw & Hs & Hpl). destruct (stacks_ready m lo hi cs Hm Wl Wh Fl Fh Nd Hr N places pre turns Hpre Ht Hne) as (_ & St & V & _).
  pose proof (prog_legal m lo hi cs Hc pre Hpre) as Lg.
  destruct (glanes_are_loops L grad O m dt k N (prog ++ pre) t places tm turns q st Lg E1 E2 St) as [A _]. specialize (A tr qn R 0 HN).
  pose proof (rows_calls N places 0 turns _ HN St V) as C. destruct turns as [|ks turns]; [now elim Hne|]. cbn [rows_of map] in A, C.
  inversion A as [|? ? ? ? ? pd v q1 st1 tr1 q2 C1 A1 J1]; subst. destruct (gjit_fails ((pre ++ [WCompile 0]) ++ map (as_row 0) ks) (q 0) (st 0)) as (pd' & C2 & F).
  { apply Forall_app. split; [exact pre_loops|exact (Forall_inv C)]. } { exact Hx. } { now apply Hq. }
  rewrite <- !app_assoc in C1. rewrite <- !app_assoc in C2. assert (pd' = pd) by (unfold compiled_by in *; congruence). subst pd'. inversion A1; subst; congruence.
Qed.
(** One problem for all lanes. *)
Lemma gshared_run turns : step_keeps_length O -> Forall (fun c => ~ constraint_component c) cs -> Forall (Forall (fun c => loop_call (as_step c))) turns -> 0 < N ->
  exists tr qn, vmapped_gloop L grad O m dt (S k) N PNone (prog ++ pre) turns q st tr qn /\
  forall i, i < N -> jitted_gloop L grad O m dt (S k) (prog ++ pre) (map (map as_step) turns) (q i) (st i) (lane i tr) (qn i).
Proof.
  intros Hk Hnc Hts HN. destruct (gshared_of L grad O m dt k N turns (prog ++ pre) q st (fun _ => HN)) as (tr & qn & R).
  - intros i Hi. apply gjit_runs; auto. clear -Hts. induction Hts as [|ks turns H _ IH]; cbn; constructor; [|exact IH]. apply Forall_map. exact H.
  - exists tr, qn. split; [exact R|]. now apply gshared_to.
Qed.
End Thms.
