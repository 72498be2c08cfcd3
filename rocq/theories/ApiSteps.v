(** Which attributes each API call can change. *)
From Verif Require Import Base Lin LinFacts Mjx Typing Component SpecComponent ComponentFacts ComponentFacts2.
From Coq Require Import Relations.
Open Scope R_scope.
Open Scope Z_scope.
Open Scope nat_scope.

#[local] Arguments Nat.ltb : simpl never.
#[local] Arguments Nat.eqb : simpl never.
#[local] Arguments build_component : simpl never.

(** One attribute change made by an API call other than model binding. *)
Inductive astep : attrs -> attrs -> Prop :=
| as_gain a g : ndim g <= 1 -> astep a (set_a_gain a g)
| as_cost a c lm k t : a_ext a = XTask c lm k -> ndim t <= 2 -> astep a (set_a_ext a (XTask t lm k))
| as_com a c lm t0 t n : a_ext a = XTask c lm (TCom t0) -> last_dim t = Ok n -> Z.of_nat n = a_dim a ->
    astep a (set_a_ext a (XTask c lm (TCom t)))
| as_pos a c lm o t0 t n : a_ext a = XTask c lm (TPos o t0) -> last_dim t = Ok n -> Z.of_nat n = a_dim a ->
    astep a (set_a_ext a (XTask c lm (TPos o t)))
| as_frame a c lm o t0 t : a_ext a = XTask c lm (TFrame o t0) ->
    astep a (set_a_ext a (XTask c lm (TFrame o t)))
| as_q a c lm j t : a_ext a = XTask c lm (TJoint j) ->
    (a_dim a = (-1)%Z \/ exists n, last_dim t = Ok n /\ Z.of_nat n = a_dim a) ->
    astep a (set_a_ext a (XTask c lm (TJoint (mkJT (jt_final j) (Some t) (jt_qidx j)))))
| as_pmin a s p t : a_ext a = XBarrier s (BPos p) ->
    (exists idx, a_mask_idxs a = idx /\ last_dim t = Ok (List.length idx)) -> includes_min (pb_lt p) = true ->
    astep a (set_a_ext a (XBarrier s (BPos (mkPB (pb_obj p) (pb_lt p) (pb_lt_idxs p) t (pb_max p)))))
| as_pmax a s p t : a_ext a = XBarrier s (BPos p) ->
    (exists idx, a_mask_idxs a = idx /\ last_dim t = Ok (List.length idx)) -> includes_max (pb_lt p) = true ->
    astep a (set_a_ext a (XBarrier s (BPos (mkPB (pb_obj p) (pb_lt p) (pb_lt_idxs p) (pb_min p) t))))
| as_qmin a s j t n : a_ext a = XBarrier s (BJoint j) -> last_dim t = Ok n -> a_dim a <> (-1)%Z ->
    Z.of_nat n = (a_dim a / 2)%Z ->
    astep a (set_a_ext a (XBarrier s (BJoint (mkJB (jb_final j) (Some t) (jb_qmax j) (jb_qidx j)))))
| as_qmax a s j t n : a_ext a = XBarrier s (BJoint j) -> last_dim t = Ok n -> a_dim a <> (-1)%Z ->
    Z.of_nat n = (a_dim a / 2)%Z ->
    astep a (set_a_ext a (XBarrier s (BJoint (mkJB (jb_final j) (jb_qmin j) (Some t) (jb_qidx j)))))
| as_force a a' : forced a = Ok a' -> astep a a'.

Definition asteps := clos_refl_trans attrs astep.
Lemma asteps_refl a : asteps a a. Proof. apply rt_refl. Qed.
Lemma asteps_one a b : astep a b -> asteps a b. Proof. apply rt_step. Qed.
Lemma asteps_trans a b c : asteps a b -> asteps b c -> asteps a c. Proof. apply rt_trans. Qed.

Lemma last_dim_neq_false t d : last_dim_neq t d = Ok false -> exists n, last_dim t = Ok n /\ Z.of_nat n = d.
Proof.
  unfold last_dim_neq. destruct (last_dim t) as [n|] eqn:E; cbn; [|discriminate]. intros H.
  exists n. split; [reflexivity|]. apply Z.eqb_eq. destruct (Z.of_nat n =? d)%Z; [reflexivity|discriminate].
Qed.
Lemma last_dim_tvec l : last_dim (tvec l) = Ok (List.length l).
Proof. reflexivity. Qed.

Lemma gain_steps t c : asteps (c_at c) (c_at (snd (update_gain t c))).
Proof.
  unfold update_gain. destruct (Nat.ltb 1 (ndim t)) eqn:E; cbn; [apply asteps_refl|].
  apply asteps_one, as_gain. apply Nat.ltb_ge in E. exact E.
Qed.
Lemma cost_steps t c : asteps (c_at c) (c_at (snd (update_cost t c))).
Proof.
  unfold update_cost, mbind, read. cbn. destruct (a_ext (c_at c)) eqn:E; try apply asteps_refl.
  destruct (Nat.ltb 2 (ndim t)) eqn:El; cbn; [apply asteps_refl|].
  apply asteps_one. eapply as_cost; eauto. now apply Nat.ltb_ge in El.
Qed.
Ltac dim_case := match goal with |- context [last_dim_neq ?t ?d] => destruct (last_dim_neq t d) as [[|]|] eqn:?El; cbn; try apply asteps_refl end.
Lemma com_steps t c : asteps (c_at c) (c_at (snd (update_target_com t c))).
Proof.
  unfold update_target_com, mbind, read, lift. cbn. destruct (a_ext (c_at c)) eqn:E; try apply asteps_refl.
  destruct k; try apply asteps_refl. cbn. dim_case.
  destruct (last_dim_neq_false _ _ El) as (n & H1 & H2). apply asteps_one. eapply as_com; eauto.
Qed.
Lemma pos_steps t c : asteps (c_at c) (c_at (snd (update_target_pos t c))).
Proof.
  unfold update_target_pos, mbind, read, lift. cbn. destruct (a_ext (c_at c)) eqn:E; try apply asteps_refl.
  destruct k; try apply asteps_refl. cbn. dim_case.
  destruct (last_dim_neq_false _ _ El) as (n & H1 & H2). apply asteps_one. eapply as_pos; eauto.
Qed.
Lemma frame_steps t c : asteps (c_at c) (c_at (snd (update_target_frame t c))).
Proof.
  unfold update_target_frame, mbind, read, lift. cbn. destruct (a_ext (c_at c)) eqn:E; try apply asteps_refl.
  destruct k; try apply asteps_refl. destruct t; cbn.
  - apply asteps_one. eapply as_frame; eauto.
  - dim_case. apply asteps_one. eapply as_frame; eauto.
Qed.
Lemma q_steps t c : asteps (c_at c) (c_at (snd (update_target_q t c))).
Proof.
  unfold update_target_q, mbind, read, lift, ret. cbn. destruct (a_ext (c_at c)) eqn:E; try apply asteps_refl.
  destruct k; try apply asteps_refl. cbn. destruct (a_dim (c_at c) =? -1)%Z eqn:Ed; cbn.
  - apply Z.eqb_eq in Ed. apply asteps_one. eapply as_q; eauto.
  - dim_case. destruct (last_dim_neq_false _ _ El) as (n & H1 & H2). apply asteps_one. eapply as_q; eauto.
Qed.
Lemma force_steps c : asteps (c_at c) (c_at (snd (mask_idxs c))).
Proof.
  rewrite mask_idxs_snd. destruct (forced (c_at c)) eqn:F; [|apply asteps_refl].
  now apply asteps_one, as_force.
Qed.

Lemma mask_idxs_case c : forall (P : res (list Z) * comp -> Prop),
  (forall a' c', forced (c_at c) = Ok a' -> c_at c' = a' -> P (Ok (a_mask_idxs a'), c')) ->
  (forall e, forced (c_at c) = Err e -> P (Err e, c)) -> P (mask_idxs c).
Proof.
  intros P H1 H2. unfold mask_idxs, mseq, mbind. rewrite force_eq.
  destruct (forced (c_at c)) as [a'|e] eqn:F; [|now apply H2].
  cbn. destruct (a_mask (c_at c)) eqn:E.
  - unfold forced in F. rewrite E in F. injection F as <-. now apply H1.
  - now apply H1.
Qed.

Lemma pmin_steps t c : asteps (c_at c) (c_at (snd (update_p_min t c))).
Proof.
  unfold update_p_min. unfold mbind at 1. unfold read. cbn. destruct (a_ext (c_at c)) as [|s [p| | |]|] eqn:E; try apply asteps_refl.
  unfold mbind at 1. apply mask_idxs_case; [|intros; apply asteps_refl].
  intros a' c' F Hc'. assert (Ha : asteps (c_at c) a') by now apply asteps_one, as_force.
  assert (E' : a_ext a' = XBarrier s (BPos p)) by (destruct (forced_other _ _ F) as (_&_&_&_&_&->); exact E).
  assert (G : forall t', last_dim t' = Ok (List.length (a_mask_idxs a')) -> asteps (c_at c)
     (c_at (snd ((if negb (includes_min (pb_lt p)) then ret tt
       else seta (fun a => set_a_ext a (XBarrier s (BPos (mkPB (pb_obj p) (pb_lt p) (pb_lt_idxs p) t' (pb_max p)))))) c')))).
  { intros t' Ht. destruct (includes_min (pb_lt p)) eqn:Ei; cbn; rewrite Hc'; [|exact Ha].
    eapply asteps_trans; [exact Ha|]. apply asteps_one. eapply as_pmin; eauto. }
  destruct (Nat.eqb (ndim t) 0); unfold mbind, lift, ret, raise; cbn.
  - destruct (scalar_of t); cbn; [|now rewrite Hc']. apply G. rewrite last_dim_tvec, vconst_length. reflexivity.
  - destruct (last_dim_neq t _) as [[|]|] eqn:El; cbn; try (now rewrite Hc').
    destruct (last_dim_neq_false _ _ El) as (n & H1 & H2). apply Nat2Z.inj in H2. subst n. now apply G.
Qed.
Lemma pmax_steps t c : asteps (c_at c) (c_at (snd (update_p_max t c))).
Proof.
  unfold update_p_max. unfold mbind at 1. unfold read. cbn. destruct (a_ext (c_at c)) as [|s [p| | |]|] eqn:E; try apply asteps_refl.
  unfold mbind at 1. apply mask_idxs_case; [|intros; apply asteps_refl].
  intros a' c' F Hc'. assert (Ha : asteps (c_at c) a') by now apply asteps_one, as_force.
  assert (E' : a_ext a' = XBarrier s (BPos p)) by (destruct (forced_other _ _ F) as (_&_&_&_&_&->); exact E).
  assert (G : forall t', last_dim t' = Ok (List.length (a_mask_idxs a')) -> asteps (c_at c)
     (c_at (snd ((if negb (includes_max (pb_lt p)) then ret tt
       else seta (fun a => set_a_ext a (XBarrier s (BPos (mkPB (pb_obj p) (pb_lt p) (pb_lt_idxs p) (pb_min p) t'))))) c')))).
  { intros t' Ht. destruct (includes_max (pb_lt p)) eqn:Ei; cbn; rewrite Hc'; [|exact Ha].
    eapply asteps_trans; [exact Ha|]. apply asteps_one. eapply as_pmax; eauto. }
  destruct (Nat.eqb (ndim t) 0); unfold mbind, lift, ret, raise; cbn.
  - destruct (scalar_of t); cbn; [|now rewrite Hc']. apply G. rewrite last_dim_tvec, vconst_length. reflexivity.
  - destruct (last_dim_neq t _) as [[|]|] eqn:El; cbn; try (now rewrite Hc').
    destruct (last_dim_neq_false _ _ El) as (n & H1 & H2). apply Nat2Z.inj in H2. subst n. now apply G.
Qed.

Lemma qmin_steps t c : asteps (c_at c) (c_at (snd (update_q_min t c))).
Proof.
  unfold update_q_min, mbind, read, lift, raise. cbn. destruct (a_ext (c_at c)) as [|s [|j| |]|] eqn:E; try apply asteps_refl.
  destruct (last_dim t) as [n|] eqn:El; cbn; try apply asteps_refl.
  unfold dim. destruct (a_dim (c_at c) =? -1)%Z eqn:Ed; cbn; try apply asteps_refl.
  destruct (Z.of_nat n =? a_dim (c_at c) / 2)%Z eqn:En; cbn; try apply asteps_refl.
  apply asteps_one. apply Z.eqb_eq in En. apply Z.eqb_neq in Ed. eapply as_qmin; eauto.
Qed.
Lemma qmax_steps t c : asteps (c_at c) (c_at (snd (update_q_max t c))).
Proof.
  unfold update_q_max, mbind, read, lift, raise. cbn. destruct (a_ext (c_at c)) as [|s [|j| |]|] eqn:E; try apply asteps_refl.
  destruct (last_dim t) as [n|] eqn:El; cbn; try apply asteps_refl.
  unfold dim. destruct (a_dim (c_at c) =? -1)%Z eqn:Ed; cbn; try apply asteps_refl.
  destruct (Z.of_nat n =? a_dim (c_at c) / 2)%Z eqn:En; cbn; try apply asteps_refl.
  apply asteps_one. apply Z.eqb_eq in En. apply Z.eqb_neq in Ed. eapply as_qmax; eauto.
Qed.

Lemma build_at c : c_at (snd (build_component c)) = c_at c \/ forced (c_at c) = Ok (c_at (snd (build_component c))).
Proof. apply build_eq. Qed.
Lemma jax_steps c : asteps (c_at c) (c_at (snd (jax_component c))).
Proof.
  unfold jax_component, mbind, read, raise. cbn.
  destruct (a_model (c_at c)); cbn; [|apply asteps_refl].
  destruct (a_dim (c_at c) =? -1)%Z; cbn; [apply asteps_refl|].
  destruct (c_modified c).
  - pose proof (build_at c) as H. destruct (build_component c) as [[j|e] c'] eqn:E; cbn in *;
      (destruct H as [->|H]; [apply asteps_refl|now apply asteps_one, as_force]).
  - destruct (c_cache c); apply asteps_refl.
Qed.
Lemma mask_steps c : asteps (c_at c) (c_at (snd (mask c))).
Proof.
  unfold mask, mseq, mbind. rewrite force_eq.
  destruct (forced (c_at c)) as [a'|e] eqn:F; cbn; [|apply asteps_refl].
  destruct (a_mask (c_at c)) eqn:E; cbn; [apply asteps_refl|]. now apply asteps_one, as_force.
Qed.

Lemma ignore_at {A} (m : M A) c : snd (ignore m c) = snd (m c).
Proof. unfold ignore, mbind. destruct (m c) as [[a|e] c']; reflexivity. Qed.

Lemma api_steps o c : api_op o -> (forall m, o <> OpModel m) -> asteps (c_at c) (c_at (after o c)).
Proof.
  intros Ha Hm. unfold after. destruct o; cbn [run_cop].
  - apply gain_steps.
  - exfalso. now apply (Hm m).
  - apply cost_steps.
  - apply com_steps.
  - apply pos_steps.
  - apply frame_steps.
  - apply q_steps.
  - apply pmin_steps.
  - apply pmax_steps.
  - apply qmin_steps.
  - apply qmax_steps.
  - destruct Ha.
  - rewrite ignore_at. apply mask_steps.
  - rewrite ignore_at. apply force_steps.
  - rewrite ignore_at. apply jax_steps.
Qed.

(** Invariants of API histories: stable under attribute changes and binding. *)
Lemma api_history (P : attrs -> Prop) os c :
  Forall api_op os -> P (c_at c) ->
  (forall a a', P a -> astep a a' -> P a') ->
  (forall c m, P (c_at c) -> P (c_at (snd (update_model m c)))) ->
  P (c_at (history os c)).
Proof.
  intros Ho Hp Hs Hm. revert c Hp. induction Ho as [|o os Ha _ IH]; intros c Hp; [exact Hp|]. cbn. apply IH.
  assert (G : asteps (c_at c) (c_at (after o c)) -> P (c_at (after o c))).
  { intros H. revert Hp. induction H as [x y H|x|x y z _ IH1 _ IH2]; eauto. }
  destruct o; try (apply G, api_steps; [exact Ha|intros; discriminate]).
  unfold after. cbn [run_cop]. apply Hm. exact Hp.
Qed.
