(** Facts for C110. *)
From Verif Require Import Base Lin LinFacts Mjx Typing Component Problem JaxComponents GlobalIK SpecQP SpecGlobal SpecGSum GlobalFacts GlobalFacts2.
From Verif Require Import Base Lin LinFacts Mjx Typing Component Problem SpecComponent SpecJoint SpecHistory SpecTyping SpecCollision SpecTree SpecShape SpecContact SpecValue SpecProblem SpecQP SpecFit SpecSetup.
From Verif Require Import ComponentFacts ComponentFacts2 CoreFacts ProblemFacts CompThms ProbThms ShareFacts FitFacts FitFacts3 TraceFacts SetupFacts.
From Verif Require Import SpecGLoop SetupFacts2 LocalIK QPThms QPThms2 QPThms3 QPThms4 QPThms5 FitFacts3 SolveThms.
Open Scope R_scope.

Lemma add_loss_split L d l j : add_loss L d l j = (do x <- add_loss L d 0 j; Ok (l + x)).
Proof.
  unfold add_loss. destruct (j_ext j); [| |reflexivity]; destruct (call L j d) as [e|]; cbn [bind]; [|reflexivity| |reflexivity].
  - destruct (bc2 Rmult (j_gain j) e); cbn [bind]; [|reflexivity]. destruct (Nat.eqb _ _); cbn [bind]; [f_equal; ring|reflexivity].
  - destruct (log_barrier _ _); cbn [bind]; [f_equal; ring|reflexivity].
Qed.
(** The loss as a sum of what each component adds alone. *)
Lemma loss_of_sum L d js : forall l y, loss_of L d l js = Ok y <-> exists xs, Forall2 (fun j x => add_loss L d 0 j = Ok x) (map snd js) xs /\ y = l + total_of xs.
Proof.
  induction js as [|[n j] js IH]; intros l y; cbn [loss_of map snd].
  - split; [intros [= <-]; exists []; split; [constructor|cbn; ring]|]. intros (xs & H & ->). inversion H; subst. cbn. f_equal. ring.
  - rewrite add_loss_split. split.
    + destruct (add_loss L d 0 j) as [x|] eqn:E; cbn [bind]; [|discriminate]. intros H. apply IH in H. destruct H as (xs & F & ->).
      exists (x :: xs). split; [constructor; assumption|]. unfold total_of. cbn. ring.
    + intros (xs & F & ->). inversion F as [|? x ? xs' E F']; subst. rewrite E. cbn [bind]. apply IH. exists xs'. split; [exact F'|]. unfold total_of. cbn. ring.
Qed.
Lemma total_perm xs ys : Permutation xs ys -> total_of xs = total_of ys.
Proof. induction 1; unfold total_of in *; cbn; lra. Qed.
Lemma forall2_perm {A B} (P : A -> B -> Prop) l l' : Permutation l l' -> forall xs, Forall2 P l xs -> exists ys, Forall2 P l' ys /\ Permutation xs ys.
Proof.
  induction 1 as [|a l l' H IH|a b l|l1 l2 l3 H1 IH1 H2 IH2]; intros xs F.
  - inversion F; subst. exists []. split; constructor.
  - inversion F as [|? x ? xs' Hx F']; subst. destruct (IH _ F') as (ys & G & Q). exists (x :: ys). split; [now constructor|now constructor].
  - inversion F as [|? x ? xs1 Hx F1]; subst. inversion F1 as [|? y ? xs2 Hy F2]; subst. exists (y :: x :: xs2). split; [now repeat constructor|constructor].
  - destruct (IH1 _ F) as (ys & G & Q). destruct (IH2 _ G) as (zs & G' & Q'). exists zs. split; [exact G'|]. now transitivity ys.
Qed.
Lemma loss_order L q pd pd' : jd_model pd' = jd_model pd -> Permutation (comps_of pd) (comps_of pd') -> forall y, loss_fn L q pd = Ok y <-> loss_fn L q pd' = Ok y.
Proof.
  assert (K : forall pd pd', jd_model pd' = jd_model pd -> Permutation (comps_of pd) (comps_of pd') -> forall y, loss_fn L q pd = Ok y -> loss_fn L q pd' = Ok y).
  { clear. intros pd pd' Em P y H. unfold loss_fn in *. rewrite Em. apply loss_of_sum in H. destruct H as (xs & F & ->). destruct (forall2_perm _ _ _ P _ F) as (ys & G & Q).
    apply loss_of_sum. exists ys. split; [exact G|]. now rewrite (total_perm _ _ Q). }
  intros Em P y. split; apply K; auto using Permutation_sym.
Qed.
Lemma forall2_app_l {A B} (P : A -> B -> Prop) l1 l2 : forall xs, Forall2 P (l1 ++ l2) xs -> exists ys zs, xs = ys ++ zs /\ Forall2 P l1 ys /\ Forall2 P l2 zs.
Proof. intros xs F. destruct (Forall2_app_inv_l _ _ F) as (ys & zs & A1 & A2 & ->). now exists ys, zs. Qed.
Lemma total_app xs ys : total_of (xs ++ ys) = total_of xs + total_of ys.
Proof. unfold total_of. induction xs as [|x xs IH]; cbn; [ring|rewrite IH; ring]. Qed.
Lemma loss_parts L q pd js1 js2 : jd_comps pd = js1 ++ js2 ->
  forall y, loss_fn L q pd = Ok y <-> exists y1 y2, loss_fn L q (only pd js1) = Ok y1 /\ loss_fn L q (only pd js2) = Ok y2 /\ y = y1 + y2.
Proof.
  intros E y. unfold loss_fn, only. cbn [jd_model jd_comps]. rewrite E. split.
  - intros H. apply loss_of_sum in H. destruct H as (xs & F & ->). rewrite map_app in F. destruct (forall2_app_l _ _ _ _ F) as (ys & zs & -> & F1 & F2).
    exists (total_of ys), (total_of zs). split; [apply loss_of_sum; exists ys; split; [exact F1|ring]|]. split; [apply loss_of_sum; exists zs; split; [exact F2|ring]|]. rewrite total_app. ring.
  - intros (y1 & y2 & H1 & H2 & ->). apply loss_of_sum in H1, H2. destruct H1 as (ys & F1 & ->). destruct H2 as (zs & F2 & ->). apply loss_of_sum.
    exists (ys ++ zs). split; [rewrite map_app; now apply Forall2_app|]. rewrite total_app. ring.
Qed.
Lemma same_step L grad O sm dt q st pd pd' : reads_values grad -> jd_model pd' = jd_model pd -> Permutation (comps_of pd) (comps_of pd') -> has_loss L sm pd ->
  t_shape q = [List.length (t_data q)] -> gsolve L grad O sm dt q st pd' = gsolve L grad O sm dt q st pd.
Proof.
  intros Hg Em P HL Hq. unfold gsolve. rewrite Hq. destruct (Nat.eqb_spec (List.length (t_data q)) (m_nq sm)) as [e|]; [|reflexivity].
  rewrite (Hg (fun x => loss_fn L x pd') (fun x => loss_fn L x pd)); [reflexivity|]. intros y Hy. destruct (HL y ltac:(congruence)) as [z Hz]. rewrite Hz. now apply (loss_order L y pd pd' Em P).
Qed.
Lemma same_steps L grad O sm dt pd pd' : reads_values grad -> jd_model pd' = jd_model pd -> Permutation (comps_of pd) (comps_of pd') -> has_loss L sm pd ->
  forall n q st q', gsteps L grad O sm dt pd n q st q' <-> gsteps L grad O sm dt pd' n q st q'.
Proof.
  intros Hg Em P HL n q st q'. split; intros H; induction H as [|n q st q1 v st1 q2 H1 H2 IH]; [constructor| |constructor|].
  - econstructor; [rewrite (same_step L grad O sm dt (tvec q) st pd pd' Hg Em P HL eq_refl); exact H1|exact IH].
  - econstructor; [rewrite <- (same_step L grad O sm dt (tvec q) st pd pd' Hg Em P HL eq_refl); exact H1|exact IH].
Qed.
Lemma true_grad_values : reads_values true_grad.
Proof.
  intros f g x H. unfold true_grad. f_equal. apply map_ext_in. intros i _. apply Coquelicot.Derive.Derive_ext. intros t. rewrite H; [reflexivity|]. apply replace_length.
Qed.

(** ** Programs that register the same components in another order *)
Lemma limit_means_unique n t v w : limit_means n t v -> limit_means n t w -> v = w.
Proof.
  intros [(x & E & ->)|[E ->]] [(y & E' & ->)|[E' ->]]; [|subst t; discriminate|subst t; discriminate|reflexivity]. subst t. now injection E' as ->.
Qed.
Lemma compiled_forall2 m cs : forall es es' : list (string * jaxc),
  Forall2 (fun c e => fst e = nm c /\ compiles (bound m c) (snd e)) cs es -> Forall2 (fun c e => fst e = nm c /\ compiles (bound m c) (snd e)) cs es' -> es = es'.
Proof.
  induction cs as [|c cs IH]; intros es es' F F'; inversion F as [|? [n j] ? r [A B] G]; inversion F' as [|? [n' j'] ? r' [A' B'] G']; subst; [reflexivity|].
  cbn [fst snd] in *. subst. unfold compiles in *. f_equal; [congruence|]. now apply IH.
Qed.
Lemma registered_in_any_order m lo hi cs cs' : sound_model m -> wf_tensor lo -> wf_tensor hi -> Forall constructed cs -> Forall (fun c => wf_arrays (c_at c)) cs ->
  limit_fits m lo -> limit_fits m hi -> NoDup (map nm cs) -> Forall (fun c => exists d, suits m c d) cs -> Permutation cs cs' ->
  exists pd pd', compiled_by (setup m lo hi cs) 0 pd /\ compiled_by (setup m lo hi cs') 0 pd' /\
    jd_model pd = m /\ jd_model pd' = m /\ jd_vmin pd' = jd_vmin pd /\ jd_vmax pd' = jd_vmax pd /\ Permutation (jd_comps pd) (jd_comps pd').
Proof.
  intros Hm Wl Wh Hc Hw Fl Fh Nd Hs P.
  destruct (setup_result m lo hi cs Hm Wl Wh Hc Hw Fl Fh Nd Hs) as (_ & pd & C & M & L1 & L2 & F).
  destruct (setup_result m lo hi cs' Hm Wl Wh (Permutation_Forall P Hc) (Permutation_Forall P Hw) Fl Fh (Permutation_NoDup (Permutation_map nm P) Nd) (Permutation_Forall P Hs)) as (_ & pd' & C' & M' & L1' & L2' & F').
  exists pd, pd'. repeat (split; [solve [assumption|eapply limit_means_unique; eassumption]|]).
  assert (W : forall xs es, Forall2 (fun c e => fst e = nm c /\ compiles (bound m c) (snd e) /\ exists d, suits m c d /\ j_dim (snd e) = Z.of_nat d) xs es ->
     Forall2 (fun c (e : string * jaxc) => fst e = nm c /\ compiles (bound m c) (snd e)) xs es).
  { intros xs es G. induction G; constructor; tauto. }
  apply W in F, F'. destruct (forall2_perm _ _ _ P _ F) as (es & G & Q). now rewrite (compiled_forall2 m cs' _ _ F' G).
Qed.
Lemma registration_order m lo hi cs cs' L : sound_model m -> wf_tensor lo -> wf_tensor hi -> Forall constructed cs -> Forall (fun c => wf_arrays (c_at c)) cs ->
  limit_fits m lo -> limit_fits m hi -> NoDup (map nm cs) -> Forall (fun c => exists d, suits m c d) cs -> Permutation cs cs' -> sound_lib L m ->
  exists pd pd', compiled_by (setup m lo hi cs) 0 pd /\ compiled_by (setup m lo hi cs') 0 pd' /\ Permutation (jd_comps pd) (jd_comps pd') /\
    forall q, let d := update L m q in
      (forall y, loss_fn L q pd = Ok y <-> loss_fn L q pd' = Ok y) /\
      (wf_data m d -> Forall (accepted L d) (comps_of pd) -> forall Q, assemble L m pd d = Ok Q ->
         exists Q', assemble L m pd' d = Ok Q' /\ forall v, optimal (m_nv m) Q v <-> optimal (m_nv m) Q' v).
Proof.
  intros Hm Wl Wh Hc Hw Fl Fh Nd Hs P HL.
  destruct (registered_in_any_order m lo hi cs cs' Hm Wl Wh Hc Hw Fl Fh Nd Hs P) as (pd & pd' & C & C' & M & M' & V1 & V2 & Q).
  destruct (setup_result m lo hi cs Hm Wl Wh Hc Hw Fl Fh Nd Hs) as (T & _).
  exists pd, pd'. split; [exact C|]. split; [exact C'|]. split; [exact Q|]. intros q. cbv zeta.
  assert (Qc : Permutation (comps_of pd) (comps_of pd')) by (unfold comps_of; now apply Permutation_map).
  split; [apply loss_order; [congruence|exact Qc]|]. intros D A Qp HQ.
  destruct (program_components m _ 0 pd T C) as (E & L1 & L2 & _). destruct (program_shaped L m _ 0 pd T C HL _ D A) as (_ & W & _).
  destruct (perm_optimal L m pd pd' (update L m q) Qp ltac:(congruence) ltac:(congruence) V1 V2 ltac:(congruence) ltac:(congruence) Qc W HQ) as (Q' & H1 & _ & _ & _ & _ & H2).
  exists Q'. split; [exact H1|]. rewrite E in H2. exact H2.
Qed.
