(** Finiteness, decay, inputs, inactive constraints, damping. *)
From Verif Require Import Base Lin LinFacts Mjx Typing Component Problem JaxComponents LocalIK SpecComponent ComponentFacts ComponentFacts2 ApiSteps BindFacts3 CoreFacts SpecQP QPFacts QPThms QPThms2 QPThms3.
Open Scope R_scope.
#[local] Arguments Nat.ltb : simpl never.
#[local] Arguments Nat.eqb : simpl never.

Lemma weighted_fits n W J e : is_mat (List.length e) n J -> is_mat (List.length e) (List.length e) W ->
  exists H c, weighted n W J e = Ok (H, mv W e, c).
Proof.
  intros [J1 J2] [W1 W2]. unfold weighted. rewrite J1. rewrite (proj2 (is_matb_spec _ _ _) (conj J1 J2)), Nat.eqb_refl. cbn [andb].
  replace (is_matb (List.length W) (List.length e) W) with true by (symmetry; apply is_matb_spec; split; [reflexivity|exact W2]). cbn. eauto.
Qed.
Lemma fits_shaped L nv d j : fits L nv d j -> well_shaped L nv d j.
Proof. intros (J & e & H1 & H2 & H3 & H4 & _) J' e' HJ He. rewrite H1 in HJ. rewrite H2 in He. injection HJ as <-. injection He as <-. auto. Qed.

Lemma piece_fits L nv d j : fits L nv d j -> (is_barrier j = true -> forall J, jacobian L j d = Ok J -> frob2 J <> 0) ->
  exists k, cpiece L nv nv d j = Ok k /\ Forall (fun M => is_mat (List.length M) nv M) (ac_A k ++ ac_G k).
Proof.
  intros (J & e & HJ & He & SJ & Sg & SW) Hf. unfold cpiece, piece.
  assert (FIN : forall k, ashape nv k -> (do _ <- check (ashapeb nv k); Ok k) = Ok k).
  { intros k Hk. apply ashapeb_spec in Hk. now rewrite Hk. }
  assert (SM : is_mat (List.length J) nv J) by (split; [reflexivity|apply SJ]).
  destruct (j_ext j) as [W lm t|sdg t|act hard W t] eqn:E.
  - unfold process_task. rewrite HJ, He. cbn [bind]. rewrite mge_eq by exact Sg. cbn [bind].
    assert (Lg : List.length (vneg (gained j e)) = List.length e) by (rewrite vneg_length; now apply gained_length).
    destruct (weighted_fits nv W J (vneg (gained j e))) as (H & c & EW); [rewrite Lg; exact SJ|rewrite Lg; exact SW|].
    rewrite EW. cbn [bind fst snd]. destruct (weighted_ok _ _ _ _ _ _ _ EW) as (_ & _ & MH & _ & Lc & _).
    eexists. split; [apply FIN; split; cbn; [|exact Lc]|constructor]. apply madd_is_mat; [exact MH|]. apply mscale_is_mat, eye_is_mat.
  - unfold process_barrier. rewrite HJ. cbn [bind]. destruct (Req_EM_T (frob2 J) 0) as [Z|_]; [exfalso; eapply Hf; eauto; unfold is_barrier; now rewrite E|].
    rewrite He. cbn [bind]. rewrite bc2_same by (rewrite map_length; exact Sg). cbn [bind]. eexists. split.
    + apply FIN. split; cbn; [apply mscale_is_mat, eye_is_mat|]. rewrite vscale_length. unfold safe_displacement. now rewrite vzero_length.
    + cbn. constructor; [|constructor]. split; [reflexivity|]. unfold mneg. apply Forall_map. eapply Forall_impl; [|apply SJ]. intros r <-. apply vneg_length.
  - destruct hard.
    + unfold process_hard. rewrite HJ, He. cbn [bind]. rewrite mge_eq by exact Sg. cbn [bind fst snd]. eexists. split.
      * apply FIN. split; cbn; [apply mzero_is_mat|apply vzero_length].
      * cbn. constructor; [exact SM|constructor].
    + unfold process_soft. rewrite HJ, He. cbn [bind]. rewrite mge_eq by exact Sg. cbn [bind].
      assert (Lg : List.length (vneg (gained j e)) = List.length e) by (rewrite vneg_length; now apply gained_length).
      destruct (weighted_fits nv W J (vneg (gained j e))) as (H & c & EW); [rewrite Lg; exact SJ|rewrite Lg; exact SW|].
      rewrite EW. cbn [bind fst snd]. destruct (weighted_ok _ _ _ _ _ _ _ EW) as (_ & _ & MH & _ & Lc & _).
      eexists. split; [apply FIN; split; cbn; [exact MH|exact Lc]|constructor].
Qed.
Lemma piece_zero L nv d j J : is_barrier j = true -> jacobian L j d = Ok J -> frob2 J = 0 -> cpiece L nv nv d j = Err NonFinite.
Proof.
  intros Hb HJ Z. unfold cpiece, piece. unfold is_barrier in Hb. destruct (j_ext j) eqn:E; try discriminate.
  unfold process_barrier. rewrite HJ. cbn [bind]. destruct (Req_EM_T (frob2 J) 0) as [_|N]; [reflexivity|now elim N].
Qed.

Lemma assemble_finite L sm pd d : m_nv sm = m_nv (jd_model pd) -> Forall (fits L (m_nv (jd_model pd)) d) (comps_of pd) ->
  ((exists Q, assemble L sm pd d = Ok Q) <->
   forall j J, In j (comps_of pd) -> is_barrier j = true -> jacobian L j d = Ok J -> frob2 J <> 0).
Proof.
  intros Hnv Hf. split.
  - intros [Q HQ] j J Hj Hb HJ Z. destruct (assemble_pieces _ _ _ _ _ HQ) as (ks & F & _). cbv zeta in *. rewrite Hnv in *.
    clear -F Hj Hb HJ Z. induction F as [|j' k js ks H F IH]; [destruct Hj|]. destruct Hj as [<-|Hj]; [|auto].
    rewrite (piece_zero L _ d j' J Hb HJ Z) in H. discriminate.
  - intros Hz. assert (G : exists ks, Forall2 (fun j k => cpiece L (m_nv (jd_model pd)) (m_nv (jd_model pd)) d j = Ok k) (comps_of pd) ks /\
      Forall (fun M => is_mat (List.length M) (m_nv (jd_model pd)) M) (flat_map ac_A ks) /\ Forall (fun M => is_mat (List.length M) (m_nv (jd_model pd)) M) (flat_map ac_G ks)).
    { induction Hf as [|j js H Hf IH]; [exists []; repeat split; constructor|].
      destruct IH as (ks & F & A & G); [intros; eapply Hz; eauto; now right|].
      destruct (piece_fits L _ d j H) as (k & Hk & HM); [intros; eapply Hz; eauto; now left|]. apply Forall_app in HM as [M1 M2].
      exists (k :: ks). split; [now constructor|]. cbn. split; apply Forall_app; auto. }
    destruct G as (ks & F & A & G). apply (assemble_ok L sm pd d ks); cbv zeta; rewrite ?Hnv; assumption.
Qed.
Lemma assemble_nonfinite L sm pd d j J : m_nv sm = m_nv (jd_model pd) -> In j (comps_of pd) -> is_barrier j = true -> jacobian L j d = Ok J -> frob2 J = 0 ->
  forall Q, assemble L sm pd d <> Ok Q.
Proof.
  intros Hnv Hj Hb HJ Z Q HQ. destruct (assemble_pieces _ _ _ _ _ HQ) as (ks & F & _). cbv zeta in *. rewrite Hnv in *.
  clear -F Hj Hb HJ Z. induction F as [|j' k js ks H F IH]; [destruct Hj|]. destruct Hj as [<-|Hj]; [|auto].
  rewrite (piece_zero L _ d j' J Hb HJ Z) in H. discriminate.
Qed.

(** ** Decay of hard constraints *)
Lemma decay_step (g e : vec) dt : List.length g = List.length e ->
  vadd e (vscale dt (vneg (vmul g (map (fun x => x) e)))) = vmul (map (fun k => 1 - k * dt) g) e.
Proof.
  revert e. induction g as [|k g IH]; intros [|x e] H; try discriminate; [reflexivity|].
  unfold vadd, vscale, vneg, vmul, vmap2 in *. cbn. rewrite IH by now injection H. f_equal. ring.
Qed.
Lemma vmul_pow (g e : vec) dt n : List.length g = List.length e ->
  vmul (map (fun k => 1 - k * dt) g) (vmul (map (fun k => (1 - k * dt) ^ n) g) e) = vmul (map (fun k => (1 - k * dt) ^ S n) g) e.
Proof.
  revert e. induction g as [|k g IH]; intros [|x e] H; try discriminate; [reflexivity|].
  unfold vmul, vmap2 in *. cbn. rewrite IH by now injection H. f_equal. ring.
Qed.
Lemma vmul_one (g e : vec) dt : List.length g = List.length e -> vmul (map (fun k => (1 - k * dt) ^ 0) g) e = e.
Proof.
  revert e. induction g as [|k g IH]; intros [|x e] H; try discriminate; [reflexivity|].
  unfold vmul, vmap2 in *. cbn. rewrite IH by now injection H. f_equal. ring.
Qed.
Lemma constraint_decay L sm pd j dt (ds : nat -> mjdata) (vs : nat -> vec) (Qs : nat -> qp) (es : nat -> vec) :
  m_nv sm = m_nv (jd_model pd) -> In j (comps_of pd) -> is_hard j = true -> (forall x, j_gain_fn j x = x) ->
  (forall k, assemble L sm pd (ds k) = Ok (Qs k) /\ Forall (well_shaped L (m_nv (jd_model pd)) (ds k)) (comps_of pd) /\
             satisfies_eq (qp_eq (Qs k)) (vs k) /\ call L j (ds k) = Ok (es k) /\
             exists J, jacobian L j (ds k) = Ok J /\ es (S k) = vadd (es k) (vscale dt (mv J (vs k)))) ->
  forall n, es n = vmul (map (fun g => (1 - g * dt) ^ n) (j_gain j)) (es 0%nat).
Proof.
  intros Hnv Hin Hh Hid H.
  assert (S : forall k, List.length (j_gain j) = List.length (es k) /\ es (Datatypes.S k) = vmul (map (fun g => 1 - g * dt) (j_gain j)) (es k)).
  { intros k. destruct (H k) as (HQ & Hs & He & Hc & J & HJ & Hn). assert (Hs' := Hs). rewrite Forall_forall in Hs'.
    destruct (Hs' j Hin J (es k) HJ Hc) as [SJ Sg]. split; [exact Sg|].
    apply (eq_iff L sm pd (ds k) (Qs k) Hnv HQ Hs) in He. rewrite Forall_forall in He.
    assert (E : mv J (vs k) = vneg (gained j (es k))) by (apply (He j); [apply filter_In; auto|exact HJ|exact Hc]).
    rewrite Hn, E. unfold gained. rewrite (map_ext _ (fun x => x)) by exact Hid. now apply decay_step. }
  induction n as [|n IH].
  - symmetry. apply vmul_one. apply S.
  - destruct (S n) as [L1 ->]. rewrite IH. apply vmul_pow. apply S.
Qed.

(** ** Entry points *)
Lemma solve_outcome L So sm q v_prev pd :
  (fst (solve L So sm q v_prev pd, tt) = Err ValueError <-> t_shape q <> [m_nq sm] \/ solve_from_data L So sm v_prev pd (update L sm (t_data q)) = Err ValueError).
Proof.
  cbn [fst]. unfold solve. destruct (t_shape q) as [|k [|k' r]] eqn:E.
  - split; [left; congruence|reflexivity].
  - destruct (Nat.eqb k (m_nq sm)) eqn:K.
    + apply Nat.eqb_eq in K. subst k. split; [right; assumption|intros [H|H]; [congruence|assumption]].
    + apply Nat.eqb_neq in K. split; [left; congruence|reflexivity].
  - split; [left; congruence|reflexivity].
Qed.
Lemma solve_shape L So sm q v_prev pd :
  (t_shape q <> [m_nq sm] -> solve L So sm q v_prev pd = Err ValueError) /\
  (t_shape q = [m_nq sm] -> solve L So sm q v_prev pd =
     match assemble L sm pd (update L sm (t_data q)) with Ok Q => Ok (So Q, sol_primal (So Q)) | Err e => Err e end).
Proof.
  unfold solve. split.
  - intros H. destruct (t_shape q) as [|k [|k' r]]; try reflexivity. destruct (Nat.eqb k (m_nq sm)) eqn:K; [|reflexivity].
    apply Nat.eqb_eq in K. congruence.
  - intros ->. rewrite Nat.eqb_refl. unfold solve_from_data. destruct (assemble L sm pd _); reflexivity.
Qed.
Lemma init_shape sm t : init sm None = Ok (vzero (m_nv sm)) /\
  (t_shape t = [m_nv sm] -> init sm (Some t) = Ok (t_data t)) /\ (t_shape t <> [m_nv sm] -> init sm (Some t) = Err ValueError).
Proof.
  split; [reflexivity|]. unfold init. split.
  - intros ->. now rewrite Nat.eqb_refl.
  - intros H. destruct (t_shape t) as [|k [|k' r]]; try reflexivity. destruct (Nat.eqb k (m_nv sm)) eqn:K; [|reflexivity].
    apply Nat.eqb_eq in K. congruence.
Qed.

(** ** Inactive constraints *)
Lemma active_call L f j d : call L (with_active f j) d = call L j d.
Proof. unfold call, with_active. destruct (j_ext j) as [? ? []|? []|? ? ? []] eqn:E; rewrite ?E; reflexivity. Qed.
Lemma active_jac L f j d : jacobian L (with_active f j) d = jacobian L j d.
Proof. destruct j as [di m g gf mi [W lm t|sdg t|act hard W []]]; reflexivity. Qed.
Lemma active_piece L n nv d a f j : add_component_qp L n nv d a (with_active f j) = add_component_qp L n nv d a j.
Proof.
  destruct j as [di m g gf mi [W lm t|sdg t|act hard W []]]; reflexivity.
Qed.
Lemma active_ignored L sm pd d f :
  assemble L sm (mkJD (jd_model pd) (jd_vmin pd) (jd_vmax pd) (map (fun p => (fst p, with_active f (snd p))) (jd_comps pd))) d = assemble L sm pd d.
Proof.
  unfold assemble. cbn [jd_model jd_vmin jd_vmax jd_comps].
  assert (E : forall l a, add_components L (m_nv sm) (m_nv (jd_model pd)) d (map (fun p => (fst p, with_active f (snd p))) l) a = add_components L (m_nv sm) (m_nv (jd_model pd)) d l a).
  { induction l as [|[s j] l IH]; intros a; [reflexivity|]. cbn [map add_components fst snd]. rewrite active_piece.
    destruct (add_component_qp _ _ _ _ a j); [|reflexivity]. cbn [bind]. apply IH. }
  now rewrite E.
Qed.

(** ** Damping *)
Definition damping_ok (a : attrs) : Prop := forall c lm k, a_ext a = XTask c lm k -> 0 <= lm.
Lemma damping_core a a' : (forall c lm k, a_ext a' = XTask c lm k -> exists c' k', a_ext a = XTask c' lm k') -> damping_ok a -> damping_ok a'.
Proof. intros H D c lm k E. destruct (H c lm k E) as (c' & k' & E'). eapply D; eauto. Qed.
Lemma damping_step a a' : damping_ok a -> astep a a' -> damping_ok a'.
Proof.
  intros D H. revert D. apply damping_core. intros c lm k E. destruct H; cbn in E; try (injection E as <- <- <-); eauto; try discriminate.
  apply forced_other in H. destruct H as (_ & _ & _ & _ & _ & X). rewrite X in E. eauto.
Qed.
Lemma damping_bind c m : damping_ok (c_at c) -> damping_ok (c_at (snd (update_model m c))).
Proof.
  apply damping_core. intros co lm k E. pose proof (keeps_update_model m c) as K. unfold core in K. rewrite E in K. cbn in K.
  destruct (a_ext (c_at c)) eqn:E'; cbn in K; try discriminate. injection K as _ _ _ _ <-. eauto.
Qed.
Lemma init_task_damping name cost gain gf lm mk k a : init_task name cost gain gf lm mk k = Ok a -> 0 <= lm.
Proof. unfold init_task. destruct (init_component name gain gf mk (XTask cost lm k)); cbn; [|discriminate]. destruct (Rlt_dec lm 0); [discriminate|]. intros _. lra. Qed.
Lemma init_task_ext name cost gain gf lm mk k a : init_task name cost gain gf lm mk k = Ok a -> a_ext a = XTask cost lm k.
Proof.
  unfold init_task, init_component. destruct (Nat.ltb 1 (ndim gain)); [discriminate|]. destruct mk as [mk|]; [destruct (negb _); [discriminate|]|];
  cbn; destruct (Rlt_dec lm 0); try discriminate; destruct (Nat.ltb 2 (ndim cost)); try discriminate; intros X; injection X; intros; subst; reflexivity.
Qed.
Lemma constructed_damping c : constructed c -> damping_ok (c_at c).
Proof.
  intros H. destruct H as [name cost gain gf lm mk c H|name cost gain on ty gf lm mk c H|name cost gain on ty gf lm mk c H|name cost gain gf lm mk c H|name cost gain gf lm mk d f c H
    |name gain on ty lo hi lt gf sdg mk c H|name gain gf sdg lo hi mk c H|name gain gf sdg dm bs ex n c H|name gain gf sdg mk d f c H|name gain hard soft c H|name gain mk hard soft d f c H].
  - unfold new_com_task in H. destruct (match mk with None => _ | _ => _ end) as [u|]; [|discriminate]. cbn [bind] in H.
    destruct (init_task name cost gain gf lm mk _) as [a0|] eqn:E; [|discriminate]. injection H as <-. apply init_task_damping in E. intros c' lm' k' E'. cbn in E'. congruence.
  - unfold new_position_task in H. destruct (init_task name cost gain gf lm mk _) as [a|] eqn:E; [|discriminate]. injection H as <-. apply init_task_damping in E. intros c' lm' k' E'. cbn in E'. congruence.
  - unfold new_frame_task in H. destruct (init_task name cost gain gf lm mk _) as [a|] eqn:E; [|discriminate]. injection H as <-. pose proof (init_task_damping _ _ _ _ _ _ _ _ E). apply init_task_ext in E. intros c' lm' k' E'. cbn in E'. congruence.
  - unfold new_joint_task in H. destruct (init_task name cost gain gf lm None _) as [a|] eqn:E; [|discriminate]. injection H as <-. pose proof (init_task_damping _ _ _ _ _ _ _ _ E). apply init_task_ext in E. intros c' lm' k' E'. cbn in E'. congruence.
  - unfold new_custom_task in H. destruct (init_task name cost gain gf lm mk _) as [a|] eqn:E; [|discriminate]. injection H as <-. pose proof (init_task_damping _ _ _ _ _ _ _ _ E). apply init_task_ext in E. intros c' lm' k' E'. cbn in E'. congruence.
  - unfold new_position_barrier, init_barrier in H.
    destruct (init_component name gain gf _ _) as [a|]; [|discriminate]. cbn [bind] in H. destruct (negb _); [discriminate|].
    destruct (from_str lt) as [t|]; [|discriminate]. cbn [bind] in H.
    assert (G : forall c1 : comp, ext_core (a_ext (c_at c1)) = inr (inl sdg) -> forall m (K : keeps m) c2, run_init c1 m = Ok c2 -> ext_core (a_ext (c_at c2)) = inr (inl sdg)).
    { intros c1 E m K c2 R. unfold run_init in R. specialize (K c1). destruct (m c1) as [[|] c']; cbn in *; [|discriminate]. injection R as <-.
      unfold core in K. injection K as _ _ _ K. now rewrite K. }
    destruct (match t with LMin => _ | LMax => _ | LBoth => _ end) as [idxs d].
    destruct (match lo with Some x => _ | None => _ end) as [c1|] eqn:E1; [|discriminate]. cbn [bind] in H.
    assert (X1 : ext_core (a_ext (c_at c1)) = inr (inl sdg)).
    { destruct lo; [eapply G; [| |exact E1]; [reflexivity|apply keeps_pmin]|injection E1 as <-; reflexivity]. }
    assert (X2 : ext_core (a_ext (c_at c)) = inr (inl sdg)).
    { destruct hi; [eapply G; [exact X1|apply (keeps_pmax t0)|exact H]|injection H as <-; exact X1]. }
    intros c' lm k E. rewrite E in X2. discriminate.
  - unfold new_joint_barrier, init_barrier, init_component in H. destruct (Nat.ltb 1 (ndim gain)); [discriminate|]. injection H as <-. intros c' lm k E. discriminate.
  - unfold new_self_collision, init_barrier, init_component in H. destruct (Nat.ltb 1 (ndim gain)); [discriminate|]. injection H as <-. intros c' lm k E. discriminate.
  - unfold new_custom_barrier, init_barrier, init_component in H. destruct (Nat.ltb 1 (ndim gain)); [discriminate|].
    destruct mk as [mk|]; [destruct (negb _); [discriminate|]|]; injection H as <-; intros c' lm k E; discriminate.
  - unfold new_model_equality, init_component in H. destruct (Nat.ltb 1 (ndim gain)); [discriminate|]. injection H as <-. intros c' lm k E. discriminate.
  - unfold new_custom_constraint, init_component in H. destruct (Nat.ltb 1 (ndim gain)); [discriminate|].
    destruct mk as [mk|]; [destruct (negb _); [discriminate|]|]; injection H as <-; intros c' lm k E; discriminate.
Qed.
Lemma api_damping c os : constructed c -> Forall api_op os -> damping_ok (c_at (history os c)).
Proof. intros Hc Ho. apply api_history; [exact Ho|now apply constructed_damping|exact damping_step|exact damping_bind]. Qed.
Lemma compiled_damping c os j W lm k : constructed c -> Forall api_op os -> fst (jax_component (history os c)) = Ok j -> j_ext j = JTask W lm k -> 0 <= lm.
Proof.
  intros Hc Ho Hj E. rewrite jax_value in Hj by (apply reachable_Inv; exists c, os; auto).
  apply jax_pure_published in Hj. pose proof (api_damping c os Hc Ho) as D.
  destruct Hj as (_ & _ & _ & _ & _ & _ & X). rewrite E in X. inversion X; subst; eapply D; eauto.
Qed.
