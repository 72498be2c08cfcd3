(** The same changes made through the API. *)
From Verif Require Import Base Lin LinFacts Mjx Typing Component Problem SpecComponent SpecProblem SpecHistory SpecFit SpecShape JaxComponents LocalIK SpecQP QPFacts QPThms3 SpecSolve ScaleFacts ScaleThms SpecTrade TradeFacts TradeThms.
From Verif Require Import ComponentFacts ComponentFacts2 ProblemFacts ShareFacts ProbThms BatchFacts2 BatchFacts3 BatchThms FitFacts3.
Open Scope R_scope.
#[local] Arguments update_model : simpl never.
#[local] Arguments jax_component : simpl never.
#[local] Arguments run_cop : simpl never.
#[local] Arguments Nat.eqb : simpl never.

(** One call on one component of the problem. *)
Lemma call_compiled os pi pd n ci j o j' : Forall legal os -> compiled_by os pi pd -> registered os pi n ci -> In (n, j) (jd_comps pd) ->
  (forall c, nth_error (w_comps (state os)) ci = Some c -> reachable c -> fst (jax_component c) = Ok j -> fst (jax_component (after o c)) = Ok j') ->
  exists l1 l2, jd_comps pd = l1 ++ (n, j) :: l2 /\ compiled_by (os ++ [WCop ci o]) pi (with_components pd (l1 ++ (n, j') :: l2)).
Proof.
  intros Hl Hc (p & Pp & Hi & Hu) Hj Ho. pose proof (reach_always os Hl) as Hr. unfold compiled_by in *. fold (state os) in Hc, Pp. rewrite !run_split. fold (state os).
  rewrite (compile_eq pi (state os) p Hr Pp) in Hc. destruct (compile_pure (p_comps p) (w_comps (state os))) as [js|] eqn:Ej; [|discriminate]. cbn in Hc. injection Hc as <-. cbn [jd_comps] in *.
  assert (Nd : NoDup (map fst (p_comps p))) by (pose proof (contents os pi) as K; rewrite Pp in K; apply K).
  apply in_split in Hi. destruct Hi as (a & b & Ep). rewrite Ep in *.
  pose proof Ej as Ej0. rewrite compile_pure_app in Ej. destruct (compile_pure a _) as [ja|] eqn:Ea; [|discriminate]. cbn in Ej.
  destruct (nth_error (w_comps (state os)) ci) as [c|] eqn:Ec; [|discriminate]. destruct (fst (jax_component c)) as [j0|] eqn:Ecj; [|discriminate]. cbn in Ej. destruct (compile_pure b _) as [jb|] eqn:Eb; [|discriminate]. cbn in Ej. injection Ej as <-.
  assert (Nj : NoDup (map fst (ja ++ (n, j0) :: jb))) by (rewrite (compile_names _ _ _ Ej0); exact Nd).
  assert (j0 = j) as ->.
  { apply (assoc_in n) in Hj; [|exact Nj]. assert (X : In (n, j0) (ja ++ (n, j0) :: jb)) by (apply in_or_app; right; now left). apply (assoc_in n) in X; [|exact Nj]. congruence. }
  assert (Rc : reachable c) by (rewrite Forall_forall in Hr; apply Hr; eapply nth_error_In; eauto). specialize (Ho c eq_refl Rc Ecj). exists ja, jb. split; [reflexivity|].
  pose proof (run_cops (fun _ => o) [ci] (state os)) as K. cbn [map] in K. destruct K as (A & B & C); [constructor; [auto|constructor]|].
  set (w' := run [WCop ci o] (state os)) in *.
  assert (Hr' : Forall reachable (w_comps w')).
  { apply Forall_forall. intros c1 Hc. apply In_nth_error in Hc. destruct Hc as [i Hi]. rewrite Forall_forall in Hr. destruct (Nat.eq_dec ci i) as [<-|N].
    - rewrite C in Hi by now left. rewrite Ec in Hi. injection Hi as <-. now apply reachable_after.
    - rewrite B in Hi by (intros [?|[]]; contradiction). apply Hr. eapply nth_error_In; eauto. }
  rewrite (compile_eq pi w' p Hr') by (rewrite A; exact Pp). rewrite Ep, compile_pure_app.
  assert (O : forall l js, compile_pure l (w_comps (state os)) = Ok js -> (forall m, ~ In (m, ci) l) -> compile_pure l (w_comps w') = Ok js).
  { induction l as [|(m, i) l IH]; intros js0 Hjs Hno; [exact Hjs|]. cbn in *. rewrite B by (intros [<-|[]]; apply (Hno m); now left). destruct (nth_error _ i) as [c1|]; [|discriminate]. destruct (fst (jax_component c1)); [|discriminate]. cbn in *.
    destruct (compile_pure l (w_comps (state os))) as [js1|]; [|discriminate]. rewrite (IH js1 eq_refl); [exact Hjs|]. intros m' Hm. apply (Hno m'). now right. }
  assert (No : forall m, ~ In (m, ci) a /\ ~ In (m, ci) b).
  { rewrite map_app in Nd. cbn in Nd. apply NoDup_remove_2 in Nd. intros m. split; intros Y; assert (m = n) as -> by (apply Hu; apply in_or_app; cbn; auto); apply Nd; apply in_or_app; [left|right]; apply in_map_iff; exists (n, ci); auto. }
  rewrite (O a ja Ea) by (intros m; apply No). cbn [bind compile_pure]. rewrite C by now left. rewrite Ec. cbn [option_map]. rewrite Ho. cbn [bind]. rewrite (O b jb Eb) by (intros m; apply No). reflexivity.
Qed.

(** Assigning the damping attribute. *)
Lemma set_damping_pure x a j : jax_pure a = Ok j -> jax_pure (set_damping x a) = Ok (redamped x j).
Proof.
  intros Hj. unfold set_damping. destruct (a_ext a) as [t lm k|g k|ac h so k] eqn:E.
  - unfold jax_pure in *. change (a_model (set_a_ext a (XTask t x k))) with (a_model a). change (a_dim (set_a_ext a (XTask t x k))) with (a_dim a).
    destruct (a_model a) as [m|] eqn:Em; [|discriminate]. destruct (a_dim a =? -1)%Z eqn:Ed; [discriminate|].
    unfold build_pure in *. change (dim (set_a_ext a (XTask t x k))) with (dim a). change (a_model (set_a_ext a (XTask t x k))) with (a_model a).
    change (vector_gain (set_a_ext a (XTask t x k))) with (vector_gain a). change (a_gain_fn (set_a_ext a (XTask t x k))) with (a_gain_fn a).
    destruct (dim a) as [n|] eqn:En; [|discriminate]. cbn [bind] in *. destruct (opt ValueError (a_model a)) as [m'|]; [|discriminate]. cbn [bind] in *.
    destruct (vector_gain a) as [g|]; [|discriminate]. cbn [bind] in *.
    assert (F : forced (set_a_ext a (XTask t x k)) = match forced a with Ok b => Ok (set_a_ext b (XTask t x k)) | Err e => Err e end).
    { clear. destruct a as [nm mo ga gf di mk mi ex]. unfold forced, set_a_ext, get_default_mask, dim. cbn. destruct mk; [reflexivity|]. destruct (di =? -1)%Z; [reflexivity|]. cbn. destruct (zsize di); reflexivity. }
    rewrite F. destruct (forced a) as [b|] eqn:Eb; [|discriminate]. cbn [bind] in *. destruct (forced_other _ _ Eb) as (_ & _ & _ & _ & Db & Xb).
    unfold build_ext in *. rewrite Xb, E in Hj. cbn [a_ext set_a_ext]. unfold matrix_cost in *. change (a_dim (set_a_ext b (XTask t x k))) with (a_dim b). change (a_ext (set_a_ext b (XTask t x k))) with (XTask t x k).
    rewrite Db, Ed in *. rewrite Xb, E in Hj. destruct (cost_matrix (a_dim a) t) as [W0|]; [|discriminate]. cbn [bind] in *.
    destruct (match k with TCom _ => _ | _ => _ end) as [jk|] eqn:Ek; [|discriminate]. cbn [bind] in *. injection Hj as <-. reflexivity.
  - unfold jax_pure in *. change (a_model (set_a_ext a (XBarrier x k))) with (a_model a). change (a_dim (set_a_ext a (XBarrier x k))) with (a_dim a).
    destruct (a_model a) as [m|] eqn:Em; [|discriminate]. destruct (a_dim a =? -1)%Z eqn:Ed; [discriminate|].
    unfold build_pure in *. change (dim (set_a_ext a (XBarrier x k))) with (dim a). change (a_model (set_a_ext a (XBarrier x k))) with (a_model a).
    change (vector_gain (set_a_ext a (XBarrier x k))) with (vector_gain a). change (a_gain_fn (set_a_ext a (XBarrier x k))) with (a_gain_fn a).
    destruct (dim a) as [n|] eqn:En; [|discriminate]. cbn [bind] in *. destruct (opt ValueError (a_model a)) as [m'|]; [|discriminate]. cbn [bind] in *.
    destruct (vector_gain a) as [g0|]; [|discriminate]. cbn [bind] in *.
    assert (F : forced (set_a_ext a (XBarrier x k)) = match forced a with Ok b => Ok (set_a_ext b (XBarrier x k)) | Err e => Err e end).
    { clear. destruct a as [nm mo ga gf di mk mi ex]. unfold forced, set_a_ext, get_default_mask, dim. cbn. destruct mk; [reflexivity|]. destruct (di =? -1)%Z; [reflexivity|]. cbn. destruct (zsize di); reflexivity. }
    rewrite F. destruct (forced a) as [b|] eqn:Eb; [|discriminate]. cbn [bind] in *. destruct (forced_other _ _ Eb) as (_ & _ & _ & _ & Db & Xb).
    unfold build_ext in *. rewrite Xb, E in Hj. cbn [a_ext set_a_ext].
    destruct (match k with BPos _ => _ | _ => _ end) as [jk|] eqn:Ek; [|discriminate]. cbn [bind] in *. injection Hj as <-. reflexivity.
  - rewrite Hj. f_equal. destruct j as [ja jb jc je jf jx]. unfold redamped. cbn. f_equal. unfold jax_pure in Hj. destruct (a_model a); [|discriminate]. destruct (a_dim a =? -1)%Z; [discriminate|]. unfold build_pure in Hj.
    destruct (dim a); [|discriminate]. cbn [bind] in Hj. destruct (opt ValueError (a_model a)); [|discriminate]. cbn [bind] in Hj. destruct (vector_gain a); [|discriminate]. cbn [bind] in Hj. destruct (forced a) as [b|] eqn:Eb; [|discriminate]. cbn [bind] in Hj.
    destruct (forced_other _ _ Eb) as (_ & _ & _ & _ & _ & Xb). unfold build_ext in Hj. rewrite Xb, E in Hj. destruct (soft_constraint_cost b); [|discriminate]. cbn [bind] in Hj. injection Hj as _ _ _ _ _ <-. reflexivity.
Qed.
Lemma set_damping_call x c j : reachable c -> fst (jax_component c) = Ok j -> fst (jax_component (after (OpAssign (set_damping x)) c)) = Ok (redamped x j).
Proof.
  intros Hr Hj. pose proof (reachable_after (OpAssign (set_damping x)) c Hr) as Hr'. rewrite (jax_value _ (reachable_Inv _ Hr)) in Hj. rewrite (jax_value _ (reachable_Inv _ Hr')). exact (set_damping_pure x (c_at c) j Hj).
Qed.
Lemma damped_program L os pi pd n ci j x pd' d v v' : Forall legal os -> compiled_by os pi pd -> registered os pi n ci -> In (n, j) (jd_comps pd) -> damping j < x -> reacts L d j ->
  compiled_by (os ++ [WCop ci (OpAssign (set_damping x))]) pi pd' -> best L d pd v -> best L d pd' v' ->
  sq v' <= sq v /\ (Forall nonneg_weights (comps_of pd) -> exists y z, total_cost L d (map (redamped 0) (comps_of pd)) v y /\ total_cost L d (map (redamped 0) (comps_of pd)) v' z /\ y <= z).
Proof.
  intros Hl Hc Hg Hj Hx Hr Hc' B B'. destruct (call_compiled os pi pd n ci j (OpAssign (set_damping x)) (redamped x j) Hl Hc Hg Hj) as (l1 & l2 & E & C); [intros c _; apply set_damping_call|].
  unfold compiled_by in C, Hc'. rewrite C in Hc'. injection Hc' as <-.
  assert (D : damping (redamped x j) = x). { destruct (damping_redamped x j) as [(a & h & W & k & X)|X]; [|exact X]. unfold reacts in Hr. rewrite X in Hr. contradiction. }
  assert (S : forall l : list (string * jaxc), Forall2 (fun j j' => redamped 0 j' = redamped 0 j /\ damping j <= damping j') (map snd l) (map snd l)) by (induction l; cbn; constructor; [split; [reflexivity|lra]|assumption]).
  apply (damping_shortens L d pd _ v v') in B'; auto.
  - split; [reflexivity|]. split; [reflexivity|]. split; [reflexivity|]. rewrite comps_with. unfold comps_of. rewrite E, !map_app. cbn [map snd]. apply Forall2_app; [apply S|]. constructor; [|apply S]. split; [apply redamped_twice|rewrite D; lra].
  - exists (List.length (map snd l1)), j, (redamped x j). rewrite comps_with. unfold comps_of. rewrite E, !map_app. cbn [map snd]. rewrite !nth_error_app2, Nat.sub_diag by lia. rewrite D. auto.
Qed.
