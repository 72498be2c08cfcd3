(** The same problem written differently: soft constraints as tasks, tasks added twice. *)
From Verif Require Import Base Lin LinFacts Mjx Typing Component Problem SpecComponent SpecProblem SpecHistory SpecFit SpecShape JaxComponents LocalIK SpecQP QPFacts QPThms3 SpecSolve ScaleFacts ScaleThms SpecTrade TradeFacts TradeThms TradeThms2 TradeThms3.
From Verif Require Import ComponentFacts ComponentFacts2 ProblemFacts ShareFacts ProbThms BatchFacts2 BatchFacts3 BatchThms FitFacts3.
Open Scope R_scope.
#[local] Arguments jax_component : simpl never.
#[local] Arguments run_cop : simpl never.
#[local] Arguments Nat.eqb : simpl never.

(** Problems with the same conditions and the same cost have the same solutions. *)
Lemma same_best L d pd pd' v : (forall w, admissible L d pd' w <-> admissible L d pd w) -> (forall w x, total_cost L d (comps_of pd') w x <-> total_cost L d (comps_of pd) w x) -> best L d pd' v <-> best L d pd v.
Proof.
  intros A T. unfold best. rewrite A. split; intros (Av & x & X & H); (split; [exact Av|]; exists x; split; [now apply T|]; intros w Hw; destruct (H w) as (y & Y & Le); [now apply A|]; exists y; split; [now apply T|exact Le]).
Qed.
Lemma replaced_best L d pd l1 n j j' l2 v : jd_comps pd = l1 ++ (n, j) :: l2 -> (forall w, obeys L d w j' <-> obeys L d w j) -> (forall w x, cost_of L d j' w x <-> cost_of L d j w x) ->
  best L d (with_components pd (l1 ++ (n, j') :: l2)) v <-> best L d pd v.
Proof.
  intros E O C. apply same_best; [intros w; apply (replaced_admissible L d pd l1 n j j' l2 w E), O|]. intros w x. rewrite comps_with. unfold comps_of. rewrite E, !map_app. cbn [map snd]. rewrite !total_split.
  split; intros (a & b & H1 & H2 & H3); exists a, b; (split; [now apply C|auto]).
Qed.

Lemma as_task_call L j : call L (as_task j) = call L j.
Proof. destruct j as [a b c e f k]. destruct k as [W lm []|g []|ac [] W []]; reflexivity. Qed.
Lemma as_task_jacobian L j d : jacobian L (as_task j) d = jacobian L j d.
Proof. destruct j as [a b c e f k]. destruct k as [W lm []|g []|ac [] W []]; reflexivity. Qed.
Lemma as_task_obeys L d j v : obeys L d v (as_task j) <-> obeys L d v j.
Proof. unfold obeys, cbf, holds_exactly. rewrite as_task_call, as_task_jacobian. destruct j as [a b c e f k]. destruct k as [W lm []|g []|ac [] W []]; reflexivity. Qed.
Lemma as_task_cost L d j v x : cost_of L d (as_task j) v x <-> cost_of L d j v x.
Proof.
  destruct (j_ext j) as [W lm k|g k|ac [] W [|f]] eqn:E; try (assert (as_task j = j) as -> by (destruct j; cbn in E; subst; reflexivity); reflexivity).
  assert (T : j_ext (as_task j) = JTask W 0 (JTCustom f)) by (unfold as_task; cbn; now rewrite E). split; intros H.
  - inversion H as [W' lm' k' J e E' EJ Ee|? ? ? ? ? E'|? ? ? E'|? ? ? E']; rewrite T in E'; try discriminate. injection E' as <- <- _. rewrite as_task_call in Ee. rewrite as_task_jacobian in EJ.
    match goal with |- cost_of _ _ _ _ ?z => replace z with (1 / 2 * sq (mv W (vadd (mv J v) (gained j e)))) by (change (gained (as_task j) e) with (gained j e); ring) end. now apply (cost_soft L d j v ac W (JCCustom f)).
  - inversion H as [W' lm' k' J e E' EJ Ee|ac' W' k' J e E' EJ Ee|? ? ? E'|? ? ? E']; rewrite E in E'; try discriminate. injection E' as <- <- _.
    match goal with |- cost_of _ _ _ _ ?z => replace z with (1 / 2 * sq (mv W (vadd (mv J v) (gained (as_task j) e))) + 1 / 2 * (0 * sq (mv W (gained (as_task j) e))) * sq v) by (change (gained (as_task j) e) with (gained j e); ring) end.
    apply (cost_task L d (as_task j) v W 0 (JTCustom f) J e); [exact T|now rewrite as_task_jacobian|now rewrite as_task_call].
Qed.
Lemma as_task_best L d pd l1 n j l2 v : jd_comps pd = l1 ++ (n, j) :: l2 -> best L d (with_components pd (l1 ++ (n, as_task j) :: l2)) v <-> best L d pd v.
Proof. intros E. apply (replaced_best L d pd l1 n j (as_task j) l2 v E); intros; [apply as_task_obeys|apply as_task_cost]. Qed.
Lemma swap_last L d pd n n' j j' v : (forall w, obeys L d w j' <-> obeys L d w j) -> (forall w x, cost_of L d j' w x <-> cost_of L d j w x) -> best L d (extended pd n' j') v <-> best L d (extended pd n j) v.
Proof.
  intros O C. apply same_best; [intros w; rewrite !extended_admissible, O; reflexivity|]. intros w x. rewrite !extended_comps, !total_split. split; intros (a & b & H1 & H2 & H3); exists a, b; (split; [now apply C|auto]).
Qed.
(** The two constructors. *)
Lemma soft_custom_compiles name cost gain msk k f m ct cc jc jt ct' cc' : new_custom_task name cost gain None 0 msk k f = Ok ct -> new_custom_constraint name gain msk false (Some cost) k f = Ok cc ->
  update_model m ct = (Ok tt, ct') -> update_model m cc = (Ok tt, cc') -> jax_pure (c_at ct') = Ok jt -> jax_pure (c_at cc') = Ok jc -> jt = as_task jc.
Proof.
  unfold new_custom_task, new_custom_constraint, init_task. intros Ht Hc. destruct (init_component name gain None msk (XTask cost 0 (TCustom f))) as [at_|] eqn:Ea; [|discriminate]. destruct (init_component name gain None msk (XConstraint true false (Some cost) (CCustom f))) as [ac|] eqn:Eb; [|discriminate].
  cbn [bind] in Ht, Hc. destruct (Rlt_dec 0 0); [discriminate|]. destruct (Nat.ltb 2 (ndim cost)); [discriminate|]. cbn [bind] in Ht. injection Ht as <-. injection Hc as <-.
  unfold init_component in Ea, Eb. destruct (Nat.ltb 1 (ndim gain)); [discriminate|].
  assert (X : exists nm gf mk mi, at_ = mkA nm None gain gf (-1) mk mi (XTask cost 0 (TCustom f)) /\ ac = mkA nm None gain gf (-1) mk mi (XConstraint true false (Some cost) (CCustom f))).
  { destruct msk as [q|]; [destruct (negb _); [discriminate|]|]; injection Ea as <-; injection Eb as <-; do 4 eexists; split; reflexivity. }
  destruct X as (nm & gf & mk & mi & -> & ->). intros U1 U2. cbn in U1, U2. injection U1 as <-. injection U2 as <-. cbn [c_at].
  unfold jax_pure, build_pure, set_a_dim, set_a_model, dim. cbn [a_model a_dim a_name a_gain a_gain_fn a_mask a_mask_idxs a_ext].
  destruct (k =? -1)%Z eqn:Ek; [discriminate|]. cbn [bind opt]. 
  set (A := mkA nm (Some m) gain gf k mk mi (XTask cost 0 (TCustom f))). set (B := mkA nm (Some m) gain gf k mk mi (XConstraint true false (Some cost) (CCustom f))).
  change (vector_gain B) with (vector_gain A). destruct (vector_gain A) as [g|]; [|discriminate]. cbn [bind].
  assert (F : forced B = match forced A with Ok a => Ok (set_a_ext a (XConstraint true false (Some cost) (CCustom f))) | Err e => Err e end).
  { unfold forced, A, B, set_a_ext, get_default_mask, dim. cbn. destruct mk; [reflexivity|]. destruct (k =? -1)%Z; [reflexivity|]. cbn. destruct (zsize k); reflexivity. }
  rewrite F. destruct (forced A) as [a|] eqn:Ef; [|discriminate]. cbn [bind]. destruct (forced_other _ _ Ef) as (_ & _ & _ & _ & Da & Xa). unfold A in Da, Xa. cbn in Da, Xa.
  unfold build_ext, matrix_cost, soft_constraint_cost, dim. rewrite Xa. cbn [set_a_ext a_ext a_dim a_mask_idxs]. rewrite Da, Ek. cbn [bind]. destruct (cost_matrix k cost) as [W|]; [|discriminate]. cbn [bind].
  intros H1 H2. injection H1 as <-. injection H2 as <-. reflexivity.
Qed.
Lemma new_compiled os pi pd c : Forall legal os -> legal (WNewComp c) -> compiled_by os pi pd -> compiled_by (os ++ [WNewComp c]) pi pd.
Proof.
  intros Hl Lc Hc. pose proof (reach_always os Hl) as Hr. destruct (compiled_problem _ _ _ Hc) as (p & Pp). unfold compiled_by in *. fold (state os) in Hc. rewrite run_split. fold (state os).
  assert (Hr' : Forall reachable (w_comps (state (os ++ [WNewComp c])))) by (apply reach_always; apply Forall_app; split; [exact Hl|constructor; [exact Lc|constructor]]). unfold state in Hr'. rewrite run_split in Hr'. fold (state os) in Hr'.
  unfold problem_of in Pp. rewrite (compile_eq pi (state os) p Hr Pp) in Hc. unfold run in *. cbn [fold_left] in *. change (snd (step (WNewComp c) (state os))) with (mkW (w_comps (state os) ++ [c]) (w_probs (state os))) in *. rewrite (compile_eq pi _ p Hr'); [|exact Pp]. cbn [w_comps]. rewrite <- Hc.
  assert (O : forall l js, compile_pure l (w_comps (state os)) = Ok js -> compile_pure l (w_comps (state os) ++ [c]) = Ok js).
  { induction l as [|(m, i) l IH]; intros js Hjs; [exact Hjs|]. cbn in *. destruct (nth_error (w_comps (state os)) i) as [c1|] eqn:E1; [|discriminate]. rewrite nth_error_app1 by (apply nth_error_Some; congruence). rewrite E1. destruct (fst (jax_component c1)); [|discriminate]. cbn in *.
    destruct (compile_pure l (w_comps (state os))) as [js1|]; [|discriminate]. now rewrite (IH js1 eq_refl). }
  destruct (compile_pure (p_comps p) (w_comps (state os))) as [js|] eqn:Ej; [|discriminate]. now rewrite (O _ _ Ej).
Qed.
Lemma fresh_unregistered os pi p n : nth_error (w_probs (state os)) pi = Some p -> forall c, compiled_by os pi c -> Forall legal os -> ~ In (n, List.length (w_comps (state os))) (p_comps p).
Proof.
  intros Pp c Hc Hl Hi. pose proof (reach_always os Hl) as Hr. unfold compiled_by in Hc. fold (state os) in Hc. rewrite (compile_eq pi (state os) p Hr Pp) in Hc. destruct (compile_pure (p_comps p) (w_comps (state os))) as [js|] eqn:Ej; [|discriminate].
  destruct (compile_pure_in _ _ _ _ _ Ej Hi) as (c1 & j1 & E1 & _). assert (X : nth_error (w_comps (state os)) (List.length (w_comps (state os))) <> None) by congruence. apply nth_error_Some in X. lia.
Qed.
(** A new component added to a problem. *)
Lemma new_added os pi pd c pd' : let k := List.length (w_comps (state os)) in Forall legal os -> legal (WNewComp c) -> compiled_by os pi pd -> fst (step (WAdd pi k) (state (os ++ [WNewComp c]))) = Ok ODone -> compiled_by (os ++ [WNewComp c; WAdd pi k]) pi pd' ->
  exists n j c', pd' = extended pd n j /\ update_model (jd_model pd) c = (Ok tt, c') /\ reachable c' /\ fst (jax_component c') = Ok j.
Proof.
  intros k Hl Lc Hc Ha Hc'. change (os ++ [WNewComp c; WAdd pi k]) with (os ++ [WNewComp c] ++ [WAdd pi k]) in Hc'. rewrite app_assoc in Hc'. pose proof (new_compiled os pi pd c Hl Lc Hc) as Hn.
  destruct (add_compiled (os ++ [WNewComp c]) pi pd k pd') as (n & j & c0 & c' & E & Ec & U & Rc & J); auto.
  - apply Forall_app. split; [exact Hl|now constructor].
  - intros p n Pp. assert (Pp' : nth_error (w_probs (state os)) pi = Some p). { unfold state in Pp. rewrite run_split in Pp. exact Pp. } now apply (fresh_unregistered os pi p n Pp' pd Hc Hl).
  - exists n, j, c'. split; [exact E|]. split; [|auto]. unfold state in Ec. rewrite run_split in Ec. fold (state os) in Ec. unfold run in Ec. cbn [fold_left step snd w_comps] in Ec. rewrite nth_error_app2 in Ec by (unfold k; lia). unfold k in Ec. rewrite Nat.sub_diag in Ec. injection Ec as <-. exact U.
Qed.
Lemma soft_is_task L os pi pd name cost gain msk n f ct cc pd1 pd2 d v : let k := List.length (w_comps (state os)) in Forall legal os -> compiled_by os pi pd ->
  new_custom_task name cost gain None 0 msk n f = Ok ct -> new_custom_constraint name gain msk false (Some cost) n f = Ok cc ->
  fst (step (WAdd pi k) (state (os ++ [WNewComp ct]))) = Ok ODone -> fst (step (WAdd pi k) (state (os ++ [WNewComp cc]))) = Ok ODone ->
  compiled_by (os ++ [WNewComp ct; WAdd pi k]) pi pd1 -> compiled_by (os ++ [WNewComp cc; WAdd pi k]) pi pd2 -> best L d pd1 v <-> best L d pd2 v.
Proof.
  intros k Hl Hc Nt Nc A1 A2 C1 C2. destruct (new_added os pi pd ct pd1 Hl) as (n1 & j1 & c1 & -> & U1 & R1 & J1); auto; [eapply made_custom_task; eauto|]. destruct (new_added os pi pd cc pd2 Hl) as (n2 & j2 & c2 & -> & U2 & R2 & J2); auto; [eapply made_custom_constraint; eauto|].
  rewrite (jax_value _ (reachable_Inv _ R1)) in J1. rewrite (jax_value _ (reachable_Inv _ R2)) in J2. rewrite (soft_custom_compiles _ _ _ _ _ _ _ _ _ _ _ _ _ Nt Nc U1 U2 J1 J2). apply swap_last; intros; [apply as_task_obeys|apply as_task_cost].
Qed.
(** The same component twice. *)
Lemma rescaled_cost_inv L d s j v x : s <> 0 -> cost_of L d (rescaled s j) v x -> cost_of L d j v (x / (s * s)).
Proof.
  intros Hs H. apply (rescaled_cost L d (/ s)) in H. assert (R : rescaled (/ s) (rescaled s j) = j).
  { pose proof (rescaled_back s (mkJD (j_model j) [] [] [(EmptyString, j)]) Hs ltac:(apply Forall_forall; auto)) as T. unfold rescaled_problem, with_components in T. cbn [map fst snd jd_comps jd_model jd_vmin jd_vmax] in T. injection T. auto. }
  rewrite R in H. replace (x / (s * s)) with (/ s * / s * x) by (field; exact Hs). exact H.
Qed.
Lemma twice_best L d pd n1 n2 n a b s j v : a <> 0 -> b <> 0 -> s * s = a * a + b * b -> best L d (extended (extended pd n1 (rescaled a j)) n2 (rescaled b j)) v <-> best L d (extended pd n (rescaled s j)) v.
Proof.
  intros Ha Hb Hs. assert (Pa : 0 < a * a) by (destruct (Rlt_dec 0 a); nra). assert (Pb : 0 < b * b) by (destruct (Rlt_dec 0 b); nra). assert (Hn : s <> 0) by (intros ->; lra). apply same_best.
  - intros w. rewrite !extended_admissible, !rescaled_obeys. tauto.
  - intros w x. rewrite !extended_comps, !total_split, !app_nil_r. split.
    + intros (y & z & Y & Z & ->). apply total_split in Z. destruct Z as (u & r & U & X & ->). rewrite app_nil_r in X. apply (rescaled_cost_inv _ _ _ _ _ _ Ha) in U. apply (rescaled_cost_inv _ _ _ _ _ _ Hb) in Y. pose proof (cost_of_fun _ _ _ _ _ _ U Y) as E. apply (rescaled_cost L d s) in U.
      eexists. exists r. split; [exact U|]. split; [exact X|]. rewrite Hs. assert (y = b * b * (u / (a * a))) as -> by (rewrite E; field; exact Hb). field. exact Ha.
    + intros (y & r & Y & X & ->). apply (rescaled_cost_inv _ _ _ _ _ _ Hn) in Y. eexists. eexists. split; [apply (rescaled_cost L d b); exact Y|]. split; [apply total_split; eexists; eexists; split; [apply (rescaled_cost L d a); exact Y|split; [rewrite app_nil_r; exact X|reflexivity]]|].
      assert (y = (a * a + b * b) * (y / (s * s))) as Q by (rewrite <- Hs; field; exact Hn). rewrite Q at 1. ring.
Qed.
