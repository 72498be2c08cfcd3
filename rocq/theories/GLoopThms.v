(** Proofs of C95. *)
From Verif Require Import Base Lin LinFacts Mjx Typing Component Problem SpecComponent SpecJoint SpecHistory SpecTyping SpecCollision SpecTree SpecShape SpecContact SpecValue SpecProblem SpecQP SpecFit SpecTrace SpecSetup.
From Verif Require Import ComponentFacts ProblemFacts FitFacts FitFacts3 SetupFacts SetupFacts2 SetupFacts3 SetupFacts4 SetupFacts5 Conf JaxComponents LocalIK GlobalIK SpecMotion SpecGlobal SpecClosed SpecGLoop GlobalFacts GlobalFacts2 ClosedFacts ClosedThms EvalFacts.
Open Scope R_scope.
#[local] Arguments update_model : simpl never.
#[local] Arguments jax_component : simpl never.
#[local] Arguments build_component : simpl never.

Section Loop.
Context (m : mjmodel) (lo hi : tensor) (cs : list comp).
Context (Hm : sound_model m) (Wl : wf_tensor lo) (Wh : wf_tensor hi) (Hc : Forall constructed cs) (Hw : Forall (fun c => wf_arrays (c_at c)) cs).
Context (Fl : limit_fits m lo) (Fh : limit_fits m hi) (Nd : NoDup (map nm cs)) (Hs : Forall (fun c => exists d, suits m c d) cs) (Hpl : Forall (plain m) cs).
Let prog := setup m lo hi cs.

Lemma all_accepted os pd L q : Forall loop_call os -> compiled_by (prog ++ os) 0 pd -> Forall (evaluates L m q) cs -> wf_data m (update L m q) -> Forall (accepted L (update L m q)) (comps_of pd).
Proof.
  intros Ho Hpd Hev Hd. destruct (calls_split os Ho) as (O1 & O2 & O3).
  pose proof (loop_made m lo hi cs os pd Hm Wl Wh Hc Hw Fl Fh Nd Hs Hpl O1 O2 O3 Hpd) as Mk. unfold comps_of. apply Forall_forall. intros j Hj. apply in_map_iff in Hj as (e & <- & Ie).
  apply In_nth_error in Ie as [i Hi]. destruct (Forall2_nth_l _ _ _ _ _ Mk Hi) as (c & Hci & M). apply nth_error_In in Hci.
  destruct (made_ok m cs Hm Hc Hw Hs c Hci) as (dd & D & Ok_). rewrite Forall_forall in Hev. eapply evaluates_accepted; eauto.
Qed.
Lemma gturn_problem os : Forall loop_call os -> exists pd, compiled_by (prog ++ os) 0 pd /\ tidy m (prog ++ os) /\ jd_model pd = m /\
  (forall L q, Forall (evaluates L m q) cs -> wf_data m (update L m q) -> Forall (accepted L (update L m q)) (comps_of pd)) /\ Forall2 same_class cs (comps_of pd).
Proof.
  intros Ho. destruct (calls_split os Ho) as (O1 & O2 & O3).
  destruct (loop_compiles m lo hi cs os Hm Wl Wh Hc Hw Fl Fh Nd Hs O1) as (pd & Q1 & Q2 & _ & _ & Q5). exists pd. split; [exact Q1|]. split; [now apply loop_tidy|]. split; [exact Q2|]. split.
  - intros L q. now apply (all_accepted os).
  - pose proof (loop_made m lo hi cs os pd Hm Wl Wh Hc Hw Fl Fh Nd Hs Hpl O1 O2 O3 Q1) as Mk. unfold comps_of. clear -Mk. induction Mk as [|c e cs es (_ & K & _) _ IH]; cbn; constructor; auto.
Qed.
Lemma class_constraint c j : same_class c j -> (constraint_component c <-> is_constraint j = true).
Proof.
  unfold same_class, constraint_component, is_constraint. destruct (a_ext (c_at c)) as [? ? []|? []|? ? ? []]; destruct (j_ext j) as [? ? []|? []|? ? ? []]; try contradiction; intros _; split; auto; discriminate.
Qed.
Lemma no_constraints js : Forall2 same_class cs js -> Forall (fun c => ~ constraint_component c) cs -> Forall (fun j => is_constraint j = false) js.
Proof.
  intros F H. clear -F H. induction F as [|c j cs js K F IH]; [constructor|]. inversion H; subst. constructor; [|auto]. destruct (is_constraint j) eqn:E; [|reflexivity]. apply (class_constraint c j K) in E. contradiction.
Qed.
Lemma gturn_runs os L grad O dt q st : Forall loop_call os -> Forall (fun c => ~ constraint_component c) cs -> sound_lib L m -> Forall (evaluates L m q) cs -> traces grad -> step_keeps_length O ->
  List.length q = m_nq m -> wf_data m (update L m q) ->
  exists pd q1 v st1, compiled_by (prog ++ os) 0 pd /\ gsolve L grad O m dt (tvec q) st pd = Ok (q1, v, st1) /\ List.length q1 = m_nq m.
Proof.
  intros Ho Hnc HL Hoa [Ht _] Hk Hq Hd. destruct (gturn_problem os Ho) as (pd & Q1 & Q2 & Q3 & Q4 & Q5). destruct (calls_split os Ho) as (O1 & _).
  destruct (program_loss L m (prog ++ os) 0 pd q Q2 Q1 HL Hd) as (xs & _ & E); [now apply Q4|now apply no_constraints|].
  destruct (Ht (fun x => loss_fn L x pd) q (ex_intro _ _ E)) as (g & Eg & Lg). destruct (o_update O g st) as [dq st1] eqn:Eo.
  exists pd. eexists. eexists. exists st1. split; [exact Q1|]. split; [unfold gsolve; cbn [t_shape t_data tvec]; rewrite Hq, Nat.eqb_refl, Eg; cbn [bind]; rewrite Eo; reflexivity|].
  specialize (Hk g st). rewrite Eo in Hk. cbn in Hk. unfold vadd, vmap2. rewrite map_length, combine_length. rewrite Hk, Lg. lia.
Qed.
Lemma gloop_runs L grad O dt turns : Forall (fun c => ~ constraint_component c) cs -> sound_lib L m -> (forall q, List.length q = m_nq m -> Forall (evaluates L m q) cs) -> (forall q, List.length q = m_nq m -> wf_data m (update L m q)) ->
  traces grad -> step_keeps_length O -> Forall (Forall loop_call) turns -> forall os q st, Forall loop_call os -> List.length q = m_nq m ->
  exists tr qn, global_loop L grad O m dt (prog ++ os) turns q st tr qn /\ List.length tr = List.length turns /\ List.length qn = m_nq m.
Proof.
  intros Hnc HL Hoa Hd Ht Hk. induction turns as [|o turns IH]; intros Hts os q st Ho Hq; [exists [], q; repeat split; [constructor|exact Hq]|].
  assert (Ho' : Forall loop_call (os ++ o)) by (apply Forall_app; split; [exact Ho|exact (Forall_inv Hts)]).
  destruct (gturn_runs (os ++ o) L grad O dt q st Ho' Hnc HL (Hoa q Hq) Ht Hk Hq (Hd q Hq)) as (pd & q1 & v & st1 & Hpd & Hso & L1).
  destruct (IH (Forall_inv_tail Hts) ((os ++ o) ++ [WCompile 0]) q1 st1) as (tr & qn & C & Lt & Ln); [|exact L1|].
  { apply Forall_app. split; [exact Ho'|]. repeat constructor. }
  exists ((q, pd, v) :: tr), qn. split; [|split; [cbn; congruence|exact Ln]].
  apply (gloop_turn L grad O m dt (prog ++ os) o turns q st pd v q1 st1 tr qn); [|exact Hso|].
  - rewrite <- app_assoc. exact Hpd.
  - rewrite <- !app_assoc. rewrite <- !app_assoc in C. exact C.
Qed.

(** The first constraint stops the solver. *)
Lemma first_constraint js : Exists (fun e : string * jaxc => is_constraint (snd e) = true) js -> exists js1 n j js2, js = js1 ++ (n, j) :: js2 /\ is_constraint j = true /\ Forall (fun e => is_constraint (snd e) = false) js1.
Proof.
  induction js as [|[n j] js IH]; intros H; [inversion H|]. destruct (is_constraint j) eqn:E; [exists [], n, j, js; repeat split; auto|].
  inversion H as [? ? X|? ? X]; subst; [cbn in X; congruence|]. destruct (IH X) as (js1 & n' & j' & js2 & -> & A & B). exists ((n, j) :: js1), n', j', js2. split; [reflexivity|]. split; [exact A|]. constructor; auto.
Qed.
Lemma gturn_fails os L grad O dt q st : Forall loop_call os -> Exists constraint_component cs -> sound_lib L m -> Forall (evaluates L m q) cs -> traces grad ->
  List.length q = m_nq m -> wf_data m (update L m q) -> exists pd, compiled_by (prog ++ os) 0 pd /\ gsolve L grad O m dt (tvec q) st pd = Err NotImplementedError.
Proof.
  intros Ho Hnc HL Hoa [_ Ht] Hq Hd. destruct (gturn_problem os Ho) as (pd & Q1 & Q2 & Q3 & Q4 & Q5). destruct (calls_split os Ho) as (O1 & _). exists pd. split; [exact Q1|].
  assert (A : Forall (accepted L (update L m q)) (comps_of pd)) by now apply Q4.
  destruct (program_fits L m (prog ++ os) 0 pd _ Q2 Q1 HL Hd A) as [F _].
  assert (X : Exists (fun e : string * jaxc => is_constraint (snd e) = true) (jd_comps pd)).
  { apply Exists_exists in Hnc as (c & Ic & Cc). apply In_nth_error in Ic as [i Hi]. destruct (Forall2_nth _ _ _ _ _ Q5 Hi) as (j & Ej & K). unfold comps_of in Ej. rewrite nth_error_map in Ej.
    destruct (nth_error (jd_comps pd) i) as [e|] eqn:Ee; [|discriminate]. injection Ej as <-. apply Exists_exists. exists e. split; [eapply nth_error_In; eauto|]. now apply (class_constraint c). }
  destruct (first_constraint _ X) as (js1 & n & j & js2 & Ejs & Cj & Nc).
  assert (Y : exists xs, Forall2 (contributes L (update L (jd_model pd) q)) (map snd js1) xs).
  { rewrite Q3. unfold comps_of in F. rewrite Ejs, map_app in F. apply Forall_app in F as [F _]. clear -F Nc. induction js1 as [|[n1 j1] js1 IH]; [exists []; constructor|]. cbn in F. inversion F as [|? ? F1 F2]; subst. inversion Nc; subst.
    destruct IH as [xs H']; auto. destruct F1 as (k & e & J & _ & He & Hl & _ & _ & Hg & _). eexists (_ :: xs). cbn [map snd]. constructor; [|exact H']. exists e. split; [exact He|]. split; [congruence|]. split; [assumption|reflexivity]. }
  destruct Y as [xs Y]. pose proof (loss_constraint L q pd js1 n j js2 xs Ejs Y Cj) as E. unfold gsolve. cbn [t_shape t_data tvec]. rewrite Hq, Nat.eqb_refl. now rewrite (Ht (fun x => loss_fn L x pd) q _ E).
Qed.
End Loop.
