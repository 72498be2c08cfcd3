(** Changing a cost through the API, and removing a component. *)
From Verif Require Import Base Lin LinFacts Mjx Typing Component Problem SpecComponent SpecProblem SpecHistory SpecFit SpecShape JaxComponents LocalIK SpecQP QPFacts SpecSolve ScaleFacts.
From Verif Require Import ComponentFacts ComponentFacts2 ProblemFacts ShareFacts ProbThms BatchFacts2 BatchFacts3 BatchThms FitFacts3.
Open Scope R_scope.
#[local] Arguments update_model : simpl never.
#[local] Arguments jax_component : simpl never.
#[local] Arguments run_cop : simpl never.
#[local] Arguments Nat.eqb : simpl never.

Definition with_weight (W : mat) (j : jaxc) : jaxc :=
  mkJ (j_dim j) (j_model j) (j_gain j) (j_gain_fn j) (j_mask_idxs j) match j_ext j with JTask _ lm k => JTask W lm k | e => e end.

Lemma recost_pure a t lm k t' j W' : a_ext a = XTask t lm k -> cost_matrix (a_dim a) t' = Ok W' -> jax_pure a = Ok j ->
  jax_pure (set_a_ext a (XTask t' lm k)) = Ok (with_weight W' j).
Proof.
  intros E EW Hj. unfold jax_pure in *. change (a_model (set_a_ext a (XTask t' lm k))) with (a_model a). change (a_dim (set_a_ext a (XTask t' lm k))) with (a_dim a).
  destruct (a_model a) as [m|] eqn:Em; [|discriminate]. destruct (a_dim a =? -1)%Z eqn:Ed; [discriminate|].
  unfold build_pure in *. change (dim (set_a_ext a (XTask t' lm k))) with (dim a). change (a_model (set_a_ext a (XTask t' lm k))) with (a_model a).
  change (vector_gain (set_a_ext a (XTask t' lm k))) with (vector_gain a).
  destruct (dim a) as [n|] eqn:En; [|discriminate]. cbn [bind] in *. destruct (opt ValueError (a_model a)) as [m'|]; [|discriminate]. cbn [bind] in *.
  destruct (vector_gain a) as [g|]; [|discriminate]. cbn [bind] in *.
  assert (F : forced (set_a_ext a (XTask t' lm k)) = match forced a with Ok b => Ok (set_a_ext b (XTask t' lm k)) | Err e => Err e end).
  { clear. destruct a as [nm mo ga gf di mk mi ex]. unfold forced, set_a_ext, get_default_mask, dim. cbn. destruct mk; [reflexivity|]. destruct (di =? -1)%Z; [reflexivity|]. cbn. destruct (zsize di); reflexivity. }
  rewrite F. destruct (forced a) as [b|] eqn:Eb; [|discriminate]. cbn [bind] in *. destruct (forced_other _ _ Eb) as (_ & _ & _ & _ & Db & Xb).
  unfold build_ext in *. rewrite Xb, E in Hj. cbn [a_ext set_a_ext]. unfold matrix_cost in *. change (a_dim (set_a_ext b (XTask t' lm k))) with (a_dim b). change (a_ext (set_a_ext b (XTask t' lm k))) with (XTask t' lm k).
  rewrite Db, Ed in *. rewrite Xb, E in Hj. rewrite EW. destruct (cost_matrix (a_dim a) t) as [W0|]; [|discriminate]. cbn [bind] in *.
  destruct (match k with TCom _ => _ | _ => _ end) as [jk|] eqn:Ek; [|discriminate]. cbn [bind] in *. injection Hj as <-. unfold with_weight. cbn. reflexivity.
Qed.

Lemma cost_matrix_scaled n t s W : cost_matrix n t = Ok W -> cost_matrix n (scaled_array s t) = Ok (mscale s W).
Proof.
  unfold cost_matrix. change (ndim (scaled_array s t)) with (ndim t). change (t_shape (scaled_array s t)) with (t_shape t). change (t_data (scaled_array s t)) with (map (Rmult s) (t_data t)).
  destruct (ndim t) as [|[|[|k]]] eqn:Ed.
  - destruct (zsize n) as [z|]; [|discriminate]. cbn [bind]. unfold scalar_of. cbn [t_data scaled_array]. destruct (t_data t) as [|x [|y r]]; try discriminate. cbn. intros H. injection H as <-. f_equal.
    unfold mscale, vscale. rewrite map_map. apply map_ext. intros r. rewrite map_map. apply map_ext. intros y. ring.
  - rewrite map_length. destruct (negb _); [discriminate|]. intros H. injection H as <-. f_equal. unfold diag, mscale, vscale. rewrite map_length, map_map. apply map_ext. intros i. rewrite map_map. apply map_ext. intros j0.
    destruct (Nat.eqb i j0); [|ring]. rewrite <- (map_nth (Rmult s)). f_equal. ring.
  - destruct (t_shape t) as [|r [|c [|? ?]]] eqn:Es; try discriminate. destruct (_ && _)%bool; [|discriminate]. intros H. injection H as <-. f_equal. unfold tmat. cbn [t_shape t_data scaled_array]. rewrite Es.
    clear. revert c. generalize (t_data t) as d. induction r as [|r IH]; intros d c; [reflexivity|]. cbn [rows_of mscale map]. f_equal.
    + unfold vscale. now rewrite firstn_map.
    + rewrite skipn_map. apply IH.
  - discriminate.
Qed.
Lemma cost_matrix_zero n : (0 <= n)%Z -> exists W, cost_matrix n (tscalar 0) = Ok W /\ zero_matrix W.
Proof.
  intros H. unfold cost_matrix. cbn. unfold zsize. destruct (n <? 0)%Z eqn:E; [lia|]. cbn. eexists. split; [reflexivity|]. intros r x Hr Hx. unfold mscale in Hr. apply in_map_iff in Hr. destruct Hr as (r' & <- & _). unfold vscale in Hx. apply in_map_iff in Hx. destruct Hx as (y & <- & _). ring.
Qed.
Lemma task_ext a j t lm k : a_ext a = XTask t lm k -> jax_pure a = Ok j -> exists W kk, cost_matrix (a_dim a) t = Ok W /\ j_ext j = JTask W lm kk /\ j_dim j = a_dim a.
Proof.
  intros E Hj. unfold jax_pure in Hj. destruct (a_model a); [|discriminate]. destruct (a_dim a =? -1)%Z eqn:Ed; [discriminate|]. unfold build_pure, dim in Hj. rewrite Ed in Hj. cbn [bind] in Hj.
  destruct (opt ValueError (a_model a)); [|discriminate]. cbn [bind] in Hj. destruct (vector_gain a); [|discriminate]. cbn [bind] in Hj. destruct (forced a) as [b|] eqn:Eb; [|discriminate]. cbn [bind] in Hj.
  destruct (forced_other _ _ Eb) as (_ & _ & _ & _ & Db & Xb). unfold build_ext in Hj. rewrite Xb, E in Hj. unfold matrix_cost in Hj. rewrite Db, Ed, Xb, E in Hj.
  destruct (cost_matrix (a_dim a) t) as [W|]; [|discriminate]. cbn [bind] in Hj. destruct (match k with TCom _ => _ | _ => _ end) as [jk|]; [|discriminate]. cbn [bind] in Hj. injection Hj as <-. cbn. eauto 6.
Qed.
Lemma ext_task a j W lm kk : jax_pure a = Ok j -> j_ext j = JTask W lm kk -> exists t k, a_ext a = XTask t lm k.
Proof.
  intros Hj Hx. unfold jax_pure in Hj. destruct (a_model a); [|discriminate]. destruct (a_dim a =? -1)%Z eqn:Ed; [discriminate|]. unfold build_pure, dim in Hj. rewrite Ed in Hj. cbn [bind] in Hj.
  destruct (opt ValueError (a_model a)); [|discriminate]. cbn [bind] in Hj. destruct (vector_gain a); [|discriminate]. cbn [bind] in Hj. destruct (forced a) as [b|] eqn:Eb; [|discriminate]. cbn [bind] in Hj.
  destruct (forced_other _ _ Eb) as (_ & _ & _ & _ & Db & Xb). unfold build_ext in Hj. rewrite Xb in Hj. destruct (a_ext a) as [t lm' k|g k|ac h so k].
  - destruct (matrix_cost b); [|discriminate]. cbn [bind] in Hj. destruct (match k with TCom _ => _ | _ => _ end); [|discriminate]. cbn [bind] in Hj. injection Hj as <-. cbn in Hx. injection Hx as _ <- _. eauto.
  - destruct (match k with BPos _ => _ | _ => _ end); [|discriminate]. cbn [bind] in Hj. injection Hj as <-. cbn in Hx. discriminate.
  - destruct (soft_constraint_cost b); [|discriminate]. cbn [bind] in Hj. injection Hj as <-. cbn in Hx. discriminate.
Qed.
Lemma ndim_ok n t W : cost_matrix n t = Ok W -> Nat.ltb 2 (ndim t) = false.
Proof. unfold cost_matrix. destruct (ndim t) as [|[|[|k]]]; try reflexivity. discriminate. Qed.
(** Setting the cost. *)
Lemma recost c t lm k t' j W' : reachable c -> a_ext (c_at c) = XTask t lm k -> fst (jax_component c) = Ok j -> cost_matrix (a_dim (c_at c)) t' = Ok W' ->
  fst (run_cop (OpCost t') c) = Ok tt /\ fst (jax_component (after (OpCost t') c)) = Ok (with_weight W' j).
Proof.
  intros Hr E Hj EW. rewrite (jax_value _ (reachable_Inv _ Hr)) in Hj. pose proof (ndim_ok _ _ _ EW) as Hn.
  assert (R : run_cop (OpCost t') c = seta (fun a => set_a_ext a (XTask t' lm k)) c).
  { unfold run_cop, update_cost, mbind, read. rewrite E. now rewrite Hn. }
  pose proof (reachable_after (OpCost t') c Hr) as Hr'.
  rewrite (jax_value _ (reachable_Inv _ Hr')). unfold after. rewrite R. unfold seta. cbn. split; [reflexivity|]. now apply (recost_pure (c_at c) t lm k t' j W').
Qed.
Lemma scaled_cost c t lm k s j : reachable c -> a_ext (c_at c) = XTask t lm k -> fst (jax_component c) = Ok j ->
  fst (run_cop (OpCost (scaled_array s t)) c) = Ok tt /\ fst (jax_component (after (OpCost (scaled_array s t)) c)) = Ok (rescaled s j).
Proof.
  intros Hr E Hj. pose proof Hj as Hj'. rewrite (jax_value _ (reachable_Inv _ Hr)) in Hj'. destruct (task_ext _ _ _ _ _ E Hj') as (W & kk & EW & Ej & _).
  destruct (recost c t lm k (scaled_array s t) j (mscale s W) Hr E Hj (cost_matrix_scaled _ _ _ _ EW)) as [A B]. split; [exact A|]. rewrite B. f_equal.
  unfold with_weight, rescaled. now rewrite Ej.
Qed.
Lemma zero_cost c t lm k j : reachable c -> a_ext (c_at c) = XTask t lm k -> fst (jax_component c) = Ok j ->
  exists W, fst (run_cop (OpCost (tscalar 0)) c) = Ok tt /\ fst (jax_component (after (OpCost (tscalar 0)) c)) = Ok (with_weight W j) /\ zero_matrix W.
Proof.
  intros Hr E Hj. pose proof Hj as Hj'. rewrite (jax_value _ (reachable_Inv _ Hr)) in Hj'. destruct (task_ext _ _ _ _ _ E Hj') as (W & kk & EW & Ej & Dj).
  assert (P : (0 <= a_dim (c_at c))%Z).
  { clear - EW. unfold cost_matrix in EW. destruct (ndim t) as [|[|[|]]]; [|destruct (Z.eqb_spec (Z.of_nat (List.length (t_data t))) (a_dim (c_at c))); [lia|discriminate]| |discriminate].
    - unfold zsize in EW. destruct (a_dim (c_at c) <? 0)%Z eqn:Ed; [discriminate|]. lia.
    - destruct (t_shape t) as [|r [|x [|? ?]]]; try discriminate. destruct (Z.eqb_spec (Z.of_nat r) (a_dim (c_at c))); [lia|discriminate]. }
  destruct (cost_matrix_zero _ P) as (Z & EZ & HZ). exists Z. destruct (recost c t lm k _ j Z Hr E Hj EZ) as [A B]. split; [exact A|]. split; [exact B|exact HZ].
Qed.
(** Running calls on distinct components. *)
Lemma run_cops (f : nat -> cop) cis : forall w, NoDup cis ->
  w_probs (run (map (fun ci => WCop ci (f ci)) cis) w) = w_probs w /\
  (forall i, ~ In i cis -> nth_error (w_comps (run (map (fun ci => WCop ci (f ci)) cis) w)) i = nth_error (w_comps w) i) /\
  (forall i, In i cis -> nth_error (w_comps (run (map (fun ci => WCop ci (f ci)) cis) w)) i = option_map (after (f i)) (nth_error (w_comps w) i)).
Proof.
  induction cis as [|ci cis IH]; intros w Hn; [cbn; repeat split; intros; try contradiction; reflexivity|]. inversion Hn as [|? ? H1 H2]; subst. cbn [map]. unfold run. cbn [fold_left]. fold (run (map (fun ci => WCop ci (f ci)) cis)).
  destruct (IH (snd (step (WCop ci (f ci)) w)) H2) as (A & B & C). fold (run (map (fun c => WCop c (f c)) cis) (snd (step (WCop ci (f ci)) w))).
  assert (S : forall i, nth_error (w_comps (snd (step (WCop ci (f ci)) w))) i = if Nat.eqb ci i then option_map (after (f i)) (nth_error (w_comps w) i) else nth_error (w_comps w) i).
  { intros i. cbn [step]. destruct (nth_error (w_comps w) ci) as [c|] eqn:E.
    - destruct (run_cop (f ci) c) as [r c'] eqn:R. cbn [snd set_comp w_comps]. destruct (Nat.eqb_spec ci i) as [<-|Ne]; [|now apply nth_replace_other]. rewrite (nth_replace_same _ _ _ _ E), E. cbn. unfold after. now rewrite R.
    - destruct (Nat.eqb_spec ci i) as [<-|Ne]; [|reflexivity]. now rewrite E. }
  split; [|split].
  - rewrite A. apply cop_world.
  - intros i Hi. rewrite B by (intros X; apply Hi; now right). rewrite S. destruct (Nat.eqb_spec ci i) as [<-|]; [exfalso; apply Hi; now left|reflexivity].
  - intros i [<-|Hi].
    + rewrite B by exact H1. rewrite S. now rewrite Nat.eqb_refl.
    + rewrite C by exact Hi. rewrite S. destruct (Nat.eqb_spec ci i) as [<-|]; [contradiction|reflexivity].
Qed.

Lemma compile_pure_app a b cs : compile_pure (a ++ b) cs = do x <- compile_pure a cs; do y <- compile_pure b cs; Ok (x ++ y).
Proof.
  induction a as [|(n, i) a IH]; cbn; [now destruct (compile_pure b cs)|]. destruct (nth_error cs i); [|reflexivity]. destruct (fst (jax_component c)); cbn; [|reflexivity].
  rewrite IH. destruct (compile_pure a cs); cbn; [|reflexivity]. now destruct (compile_pure b cs).
Qed.
Lemma compile_pure_rescaled s l : forall cs cs' js, compile_pure l cs = Ok js ->
  (forall n i c j, In (n, i) l -> nth_error cs i = Some c -> fst (jax_component c) = Ok j -> exists c', nth_error cs' i = Some c' /\ fst (jax_component c') = Ok (rescaled s j)) ->
  (forall j, In j (map snd js) -> only_task_costs j) ->
  True -> compile_pure l cs' = Ok (map (fun e => (fst e, rescaled s (snd e))) js).
Proof.
  induction l as [|(n, i) l IH]; intros cs cs' js H Hc Ho _; cbn in *; [now injection H as <-|].
  destruct (nth_error cs i) as [c|] eqn:E; [|discriminate]. destruct (fst (jax_component c)) as [j|] eqn:Ej; [|discriminate]. cbn in H. destruct (compile_pure l cs) as [js'|] eqn:El; [|discriminate]. cbn in H. injection H as <-.
  destruct (Hc n i c j (or_introl eq_refl) E Ej) as (c' & E' & Ej'). rewrite E', Ej'. cbn. rewrite (IH cs cs' js' El); auto.
  - intros n' i' c1 j1 Hi. apply (Hc n' i' c1 j1). now right.
  - intros j1 Hj1. apply Ho. now right.
Qed.
Lemma compile_pure_in l : forall cs js n i, compile_pure l cs = Ok js -> In (n, i) l -> exists c j, nth_error cs i = Some c /\ fst (jax_component c) = Ok j /\ In (n, j) js.
Proof.
  induction l as [|(m, k) l IH]; intros cs js n i H Hi; [contradiction|]. cbn in H. destruct (nth_error cs k) as [c|] eqn:E; [|discriminate]. destruct (fst (jax_component c)) as [j|] eqn:Ej; [|discriminate]. cbn in H.
  destruct (compile_pure l cs) as [js'|] eqn:El; [|discriminate]. cbn in H. injection H as <-. destruct Hi as [Hi|Hi].
  - injection Hi as -> ->. exists c, j. repeat split; auto. now left.
  - destruct (IH _ _ _ _ El Hi) as (c1 & j1 & A & B & C). exists c1, j1. repeat split; auto. now right.
Qed.
Lemma rescaled_plain s j : only_task_costs j -> (forall W lm k, j_ext j <> JTask W lm k) -> rescaled s j = j.
Proof.
  intros Ho Hn. destruct j as [a b c e f x]. unfold only_task_costs in Ho. cbn in *. unfold rescaled. cbn. f_equal. destruct x as [W lm k|g k|ac [] W k]; [now destruct (Hn W lm k)|subst g; f_equal; ring|reflexivity|discriminate].
Qed.
Lemma rescale_compiled os pi pd s cis : Forall legal os -> compiled_by os pi pd -> Forall only_task_costs (comps_of pd) -> lists_tasks (state os) pi cis ->
  compiled_by (os ++ rescale_costs s (state os) cis) pi (rescaled_problem s pd).
Proof.
  intros Hl Hc Ho [Hn Ht]. pose proof (reach_always os Hl) as Hr. destruct (compiled_problem _ _ _ Hc) as (p & Pp). unfold compiled_by in *. fold (state os) in Hc. rewrite run_split. fold (state os).
  unfold problem_of in Pp. rewrite (compile_eq pi (state os) p Hr Pp) in Hc. destruct (compile_pure (p_comps p) (w_comps (state os))) as [js|] eqn:Ej; [|discriminate]. cbn in Hc. injection Hc as <-.
  unfold rescale_costs. set (f := fun ci => OpCost (scaled_array s (task_cost (state os) ci))).
  destruct (run_cops f cis (state os) Hn) as (A & B & C).
  set (w' := run (map (fun ci => WCop ci (f ci)) cis) (state os)) in *. change (map (fun ci => WCop ci (OpCost (scaled_array s (task_cost (state os) ci)))) cis) with (map (fun ci => WCop ci (f ci)) cis). fold w'.
  assert (Hr' : Forall reachable (w_comps w')).
  { apply Forall_forall. intros c Hc. apply In_nth_error in Hc. destruct Hc as [i Hi]. rewrite Forall_forall in Hr. destruct (in_dec Nat.eq_dec i cis) as [Y|N].
    - rewrite C in Hi by exact Y. destruct (nth_error (w_comps (state os)) i) as [c0|] eqn:E0; [|discriminate]. injection Hi as <-. apply reachable_after. apply Hr. eapply nth_error_In; eauto.
    - rewrite B in Hi by exact N. apply Hr. eapply nth_error_In; eauto. }
  rewrite (compile_eq pi w' p Hr') by (rewrite A; exact Pp).
  rewrite (compile_pure_rescaled s _ (w_comps (state os)) (w_comps w') js Ej); [reflexivity| | |exact I].
  - intros n i c j Hi Ec Ecj. assert (Rc : reachable c) by (rewrite Forall_forall in Hr; apply Hr; eapply nth_error_In; eauto).
    destruct (in_dec Nat.eq_dec i cis) as [Y|N].
    + rewrite C by exact Y. rewrite Ec. cbn. eexists. split; [reflexivity|]. apply Ht in Y. destruct Y as (p' & n' & c1 & t & lm & k & _ & _ & Ec1 & X). rewrite Ec in Ec1. injection Ec1 as <-.
      unfold f, task_cost. rewrite Ec, X. now apply (scaled_cost c t lm k s j).
    + exists c. rewrite B by exact N. split; [exact Ec|]. rewrite Ecj. f_equal. symmetry. apply rescaled_plain.
      * rewrite Forall_forall in Ho. apply Ho. unfold comps_of. cbn. destruct (compile_pure_in _ _ _ _ _ Ej Hi) as (c2 & j2 & E2 & E3 & E4). rewrite Ec in E2. injection E2 as <-. rewrite Ecj in E3. injection E3 as <-. apply in_map_iff. exists (n, j). auto.
      * intros W lm k X. rewrite (jax_value _ (reachable_Inv _ Rc)) in Ecj. destruct (ext_task _ _ _ _ _ Ecj X) as (t & kk & Y). apply N. apply Ht. exists p, n, c, t, lm, kk. auto.
  - intros j Hj. rewrite Forall_forall in Ho. now apply Ho.
Qed.

(** Zero cost and removal. *)
Lemma remove_split n ci a b : NoDup (map fst (a ++ (n, ci) :: b)) -> remove_name n (a ++ (n, ci) :: b) = a ++ b.
Proof.
  intros H. rewrite map_app in H. cbn in H. apply NoDup_remove_2 in H. unfold remove_name. rewrite filter_app. cbn. rewrite String.eqb_refl. cbn.
  assert (K : forall l : list (string * nat), ~ In n (map fst l) -> filter (fun e => negb (String.eqb n (fst e))) l = l).
  { induction l as [|(m, i) l IH]; cbn; [reflexivity|]. intros K. destruct (String.eqb_spec n m) as [->|]; [exfalso; apply K; now left|]. cbn. f_equal. apply IH. intros X. apply K. now right. }
  rewrite !K; [reflexivity| |]; intros X; apply H; apply in_or_app; auto.
Qed.
Lemma zero_compiled os pi pd n ci j : Forall legal os -> compiled_by os pi pd -> registered os pi n ci -> In (n, j) (jd_comps pd) -> (exists W lm k, j_ext j = JTask W lm k) ->
  exists W l1 l2, zero_matrix W /\ jd_comps pd = l1 ++ (n, j) :: l2 /\
    compiled_by (os ++ [WCop ci (OpCost (tscalar 0))]) pi (with_components pd (l1 ++ (n, with_weight W j) :: l2)) /\
    compiled_by (os ++ [WRemove pi n]) pi (with_components pd (l1 ++ l2)).
Proof.
  intros Hl Hc (p & Pp & Hi & Hu) Hj (W0 & lm & k & Hk). pose proof (reach_always os Hl) as Hr. unfold compiled_by in *. fold (state os) in Hc, Pp. rewrite !run_split. fold (state os).
  rewrite (compile_eq pi (state os) p Hr Pp) in Hc. destruct (compile_pure (p_comps p) (w_comps (state os))) as [js|] eqn:Ej; [|discriminate]. cbn in Hc. injection Hc as <-. cbn [jd_comps] in *.
  assert (Nd : NoDup (map fst (p_comps p))) by (pose proof (contents os pi) as K; rewrite Pp in K; apply K).
  apply in_split in Hi. destruct Hi as (a & b & Ep). rewrite Ep in *.
  pose proof Ej as Ej0. rewrite compile_pure_app in Ej. destruct (compile_pure a _) as [ja|] eqn:Ea; [|discriminate]. cbn in Ej.
  destruct (nth_error (w_comps (state os)) ci) as [c|] eqn:Ec; [|discriminate]. destruct (fst (jax_component c)) as [j'|] eqn:Ecj; [|discriminate]. cbn in Ej. destruct (compile_pure b _) as [jb|] eqn:Eb; [|discriminate]. cbn in Ej. injection Ej as <-.
  assert (Nj : NoDup (map fst (ja ++ (n, j') :: jb))) by (rewrite (compile_names _ _ _ Ej0); exact Nd).
  assert (j' = j) as ->.
  { apply (assoc_in n) in Hj; [|exact Nj]. assert (X : In (n, j') (ja ++ (n, j') :: jb)) by (apply in_or_app; right; now left). apply (assoc_in n) in X; [|exact Nj]. congruence. }
  assert (Rc : reachable c) by (rewrite Forall_forall in Hr; apply Hr; eapply nth_error_In; eauto).
  assert (X : exists t kk, a_ext (c_at c) = XTask t lm kk). { pose proof Ecj as Y. rewrite (jax_value _ (reachable_Inv _ Rc)) in Y. apply (ext_task _ _ _ _ _ Y Hk). }
  destruct X as (t & kk & X). destruct (zero_cost c t lm kk j Rc X Ecj) as (W & _ & Z2 & Z3). exists W, ja, jb. split; [exact Z3|]. split; [reflexivity|]. split.
  - pose proof (run_cops (fun _ => OpCost (tscalar 0)) [ci] (state os)) as K. cbn [map] in K. destruct K as (A & B & C); [constructor; [auto|constructor]|].
    set (w' := run [WCop ci (OpCost (tscalar 0))] (state os)) in *.
    assert (Hr' : Forall reachable (w_comps w')).
    { apply Forall_forall. intros c1 Hc. apply In_nth_error in Hc. destruct Hc as [i Hi]. rewrite Forall_forall in Hr. destruct (Nat.eq_dec ci i) as [<-|N].
      - rewrite C in Hi by now left. rewrite Ec in Hi. injection Hi as <-. now apply reachable_after.
      - rewrite B in Hi by (intros [?|[]]; contradiction). apply Hr. eapply nth_error_In; eauto. }
    rewrite (compile_eq pi w' p Hr') by (rewrite A; exact Pp). rewrite Ep, compile_pure_app.
    assert (O : forall l js, compile_pure l (w_comps (state os)) = Ok js -> (forall m, ~ In (m, ci) l) -> compile_pure l (w_comps w') = Ok js).
    { induction l as [|(m, i) l IH]; intros js0 Hjs Hno; [exact Hjs|]. cbn in *. rewrite B by (intros [<-|[]]; apply (Hno m); now left). destruct (nth_error _ i) as [c1|]; [|discriminate]. destruct (fst (jax_component c1)); [|discriminate]. cbn in *.
      destruct (compile_pure l (w_comps (state os))) as [js1|]; [|discriminate]. rewrite (IH js1 eq_refl); [exact Hjs|]. intros m' Hm. apply (Hno m'). now right. }
    assert (No : forall m, ~ In (m, ci) a /\ ~ In (m, ci) b).
    { rewrite map_app in Nd. cbn in Nd. apply NoDup_remove_2 in Nd. intros m. split; intros Y; assert (m = n) as -> by (apply Hu; apply in_or_app; cbn; auto); apply Nd; apply in_or_app; [left|right]; apply in_map_iff; exists (n, ci); auto. }
    rewrite (O a ja Ea) by (intros m; apply No). cbn [bind compile_pure]. rewrite C by now left. rewrite Ec. cbn [option_map]. rewrite Z2. cbn [bind]. rewrite (O b jb Eb) by (intros m; apply No). reflexivity.
  - unfold run. cbn [fold_left]. change (step (WRemove pi n) (state os)) with (remove_component pi n (state os)). unfold remove_component. rewrite Pp. assert (Hh : has_name n p = true).
    { unfold has_name. rewrite Ep. apply existsb_exists. exists (n, ci). split; [apply in_or_app; right; now left|apply String.eqb_refl]. }
    rewrite Hh. cbn [snd]. set (p' := mkP (p_model p) (p_vmin p) (p_vmax p) (remove_name n (p_comps p))).
    rewrite (compile_eq pi (set_prob (state os) pi p') p'); [|exact Hr|cbn; eapply nth_replace_same; eauto].
    unfold p'. cbn [p_comps p_model p_vmin p_vmax set_prob w_comps]. rewrite Ep, remove_split by exact Nd. rewrite compile_pure_app, Ea. cbn. rewrite Eb. reflexivity.
Qed.

Lemma tidy_snoc m os o : tidy m os -> legal o -> single m o -> wf_wop o -> proper o -> ~ binding o -> tidy m (os ++ [o]).
Proof.
  intros (A & B & C & D & E & F) H1 H2 H3 H4 H5. split; [exact A|]. repeat (split; [apply Forall_app; split; [assumption|constructor; [assumption|constructor]]|]).
  intros k x Hk Hx. destruct (Nat.lt_ge_cases k (List.length os)) as [Hlt|Hge].
  - rewrite nth_error_app1 in Hk by exact Hlt. rewrite firstn_app. replace (k - List.length os)%nat with 0%nat by lia. rewrite firstn_O, app_nil_r. now apply F.
  - rewrite nth_error_app2 in Hk by exact Hge. destruct (k - List.length os)%nat as [|[|?]]; cbn in Hk; try discriminate. injection Hk as <-. contradiction.
Qed.
Lemma with_weight_accepted L d W j : accepted L d j -> accepted L d (with_weight W j).
Proof. unfold accepted, keeps_dim, with_weight. cbn. destruct (j_ext j) as [? ? []|? []|? ? ? []]; auto. Qed.
Lemma zero_cost_removed L m os pi pd n ci j d : tidy m os -> compiled_by os pi pd -> registered os pi n ci -> In (n, j) (jd_comps pd) -> (exists W lm k, j_ext j = JTask W lm k) ->
  sound_lib L m -> wf_data m d -> Forall (accepted L d) (comps_of pd) ->
  exists pd0 pd1, compiled_by (os ++ [WCop ci (OpCost (tscalar 0))]) pi pd0 /\ compiled_by (os ++ [WRemove pi n]) pi pd1 /\ forall v, best L d pd0 v <-> best L d pd1 v.
Proof.
  intros Ht Hc Hg Hj Hk HL Hd Ha. destruct (zero_compiled os pi pd n ci j) as (W & l1 & l2 & Z & E & C0 & C1); auto; [apply Ht|].
  eexists. eexists. split; [exact C0|]. split; [exact C1|]. intros v.
  rewrite (weightless_best L (m_nv m) d (with_components pd (l1 ++ (n, with_weight W j) :: l2)) l1 n (with_weight W j) l2 v eq_refl); [reflexivity| |].
  - destruct Hk as (W0 & lm & k & Hk). unfold weightless, with_weight. cbn. now rewrite Hk.
  - assert (T : tidy m (os ++ [WCop ci (OpCost (tscalar 0))])). { apply tidy_snoc; cbn; auto. reflexivity. }
    destruct (program_fits L m _ pi _ d T C0 HL Hd) as [_ F].
    + unfold comps_of in *. rewrite E in Ha. cbn. rewrite map_app in *. cbn in *. apply Forall_app in Ha. destruct Ha as [H1 H2]. inversion H2; subst. apply Forall_app. split; [assumption|]. constructor; [now apply with_weight_accepted|assumption].
    + rewrite Forall_forall in F. apply F. unfold comps_of. cbn. rewrite map_app. apply in_or_app. right. now left.
Qed.
Lemma rescale_program L os pi pd s cis : Forall legal os -> compiled_by os pi pd -> Forall only_task_costs (comps_of pd) -> lists_tasks (state os) pi cis -> s <> 0 ->
  exists pd', compiled_by (os ++ rescale_costs s (state os) cis) pi pd' /\ forall d v, best L d pd' v <-> best L d pd v.
Proof. intros Hl Hc Ho Ht Hs. exists (rescaled_problem s pd). split; [now apply rescale_compiled|]. intros d v. now apply rescaled_best. Qed.
