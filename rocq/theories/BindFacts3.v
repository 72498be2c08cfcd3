(** Setters, joint components over histories, self-collision and equality binding. *)
From Verif Require Import Base Lin LinFacts Mjx Typing Component SpecComponent ComponentFacts ComponentFacts2
  SpecJoint JointFacts ApiSteps BindFacts BindFacts2 SpecHistory.
Open Scope R_scope.
Open Scope Z_scope.
Open Scope nat_scope.

#[local] Arguments Nat.ltb : simpl never.
#[local] Arguments Nat.eqb : simpl never.
#[local] Arguments last_dim : simpl never.
#[local] Arguments argwhere : simpl never.
#[local] Arguments selected : simpl never.

Lemma custom_task_inv_new name cost gain gf lm mk d f c : new_custom_task name cost gain gf lm mk (Z.of_nat d) f = Ok c ->
  custom_inv (mk_opt mk) d (c_at c).
Proof.
  unfold new_custom_task. destruct (init_task name cost gain gf lm mk _) as [a'|] eqn:E; cbn; [|discriminate].
  intros H; injection H as <-. cbn. split; [reflexivity|]. split; [exact (init_mask_state _ _ _ _ _ _ _ _ d E)|].
  left. cbn. destruct (init_task_mask _ _ _ _ _ _ _ _ E) as (_ & _ & -> & _). eauto.
Qed.
Lemma init_comp_mask name gain gf mk k a : init_component name gain gf mk k = Ok a ->
  a_ext a = k /\ a_gain a = gain /\ a_model a = None /\ a_name a = name /\ a_dim a = (-1)%Z /\ a_mask a = mk_opt mk /\ (forall d, mask_state (mk_opt mk) d a).
Proof.
  unfold init_component. destruct (Nat.ltb 1 (ndim gain)); [discriminate|]. destruct mk as [m|].
  - destruct (negb _); [discriminate|]. intros H; injection H as <-. cbn. repeat split.
  - intros H; injection H as <-. cbn. repeat split. intros; now left.
Qed.
Lemma custom_barrier_inv_new name gain gf sdg mk d f c : new_custom_barrier name gain gf sdg mk (Z.of_nat d) f = Ok c ->
  custom_inv (mk_opt mk) d (c_at c).
Proof.
  unfold new_custom_barrier, init_barrier. destruct (init_component name gain gf mk _) as [a'|] eqn:E; cbn; [|discriminate].
  intros H; injection H as <-. destruct (init_comp_mask _ _ _ _ _ _ E) as (H1 & _ & _ & _ & _ & _ & H2).
  split; [reflexivity|]. split; [exact (H2 d)|]. right. left. cbn. eauto.
Qed.
Lemma custom_constraint_inv_new name gain mk h s d f c : new_custom_constraint name gain mk h s (Z.of_nat d) f = Ok c ->
  custom_inv (mk_opt mk) d (c_at c).
Proof.
  unfold new_custom_constraint. destruct (init_component name gain None mk _) as [a'|] eqn:E; cbn; [|discriminate].
  intros H; injection H as <-. destruct (init_comp_mask _ _ _ _ _ _ E) as (H1 & _ & _ & _ & _ & _ & H2).
  split; [reflexivity|]. split; [exact (H2 d)|]. right. right. cbn. eauto 7.
Qed.

(** ** Setters *)
Lemma last_dim_err t e : last_dim t = Err e -> ndim t = 0.
Proof.
  unfold last_dim, ndim. destruct (rev (t_shape t)) as [|n l] eqn:E; [|discriminate]. intros _.
  now rewrite <- rev_length, E.
Qed.
Lemma last_dim_pos t n : last_dim t = Ok n -> ndim t <> 0.
Proof.
  unfold last_dim, ndim. destruct (rev (t_shape t)) as [|k l] eqn:E; [discriminate|]. intros _.
  rewrite <- rev_length, E. discriminate.
Qed.

(** The check [t.shape[-1] != d]. *)
Lemma last_dim_neq_spec t d : 
  (last_dim_neq t d = Ok false /\ exists n, last_dim t = Ok n /\ Z.of_nat n = d) \/
  (last_dim_neq t d = Ok true /\ exists n, last_dim t = Ok n /\ Z.of_nat n <> d) \/
  (last_dim_neq t d = Err IndexError /\ ndim t = 0).
Proof.
  unfold last_dim_neq. destruct (last_dim t) as [n|e] eqn:E; cbn.
  - destruct (Z.of_nat n =? d)%Z eqn:Ez; cbn; [apply Z.eqb_eq in Ez; left|apply Z.eqb_neq in Ez; right; left]; eauto 6.
  - right. right. split; [|now apply last_dim_err in E]. unfold last_dim in E. destruct (rev _); congruence.
Qed.

Lemma set_target_com t c cost lm t0 : a_ext (c_at c) = XTask cost lm (TCom t0) ->
  (forall n, last_dim t = Ok n -> Z.of_nat n = a_dim (c_at c) ->
     update_target_com t c = (Ok tt, mkC (set_a_ext (c_at c) (XTask cost lm (TCom t))) true (c_cache c))) /\
  ((forall n, last_dim t = Ok n -> Z.of_nat n <> a_dim (c_at c)) ->
     snd (update_target_com t c) = c /\
     fst (update_target_com t c) = Err (if Nat.eqb (ndim t) 0 then IndexError else ValueError)).
Proof.
  intros He. unfold update_target_com, mbind, read, lift, raise, seta. rewrite He. cbn.
  destruct (last_dim_neq_spec t (a_dim (c_at c))) as [(-> & n & H1 & H2)|[(-> & n & H1 & H2)|(-> & H1)]].
  - split; [reflexivity|]. intros H. exfalso. eapply H; eauto.
  - split; [intros k Hk Hz; exfalso; congruence|]. intros _. cbn. split; [reflexivity|].
    apply last_dim_pos, Nat.eqb_neq in H1. now rewrite H1.
  - split; [intros k Hk; apply last_dim_pos in Hk; contradiction|]. intros _. cbn. rewrite H1. now split.
Qed.
Lemma set_target_pos t c cost lm o t0 : a_ext (c_at c) = XTask cost lm (TPos o t0) ->
  (forall n, last_dim t = Ok n -> Z.of_nat n = a_dim (c_at c) ->
     update_target_pos t c = (Ok tt, mkC (set_a_ext (c_at c) (XTask cost lm (TPos o t))) true (c_cache c))) /\
  ((forall n, last_dim t = Ok n -> Z.of_nat n <> a_dim (c_at c)) ->
     snd (update_target_pos t c) = c /\
     fst (update_target_pos t c) = Err (if Nat.eqb (ndim t) 0 then IndexError else ValueError)).
Proof.
  intros He. unfold update_target_pos, mbind, read, lift, raise, seta. rewrite He. cbn.
  destruct (last_dim_neq_spec t (a_dim (c_at c))) as [(-> & n & H1 & H2)|[(-> & n & H1 & H2)|(-> & H1)]].
  - split; [reflexivity|]. intros H. exfalso. eapply H; eauto.
  - split; [intros k Hk Hz; exfalso; congruence|]. intros _. cbn. split; [reflexivity|].
    apply last_dim_pos, Nat.eqb_neq in H1. now rewrite H1.
  - split; [intros k Hk; apply last_dim_pos in Hk; contradiction|]. intros _. cbn. rewrite H1. now split.
Qed.
Lemma set_target_q t c cost lm j : a_ext (c_at c) = XTask cost lm (TJoint j) -> a_dim (c_at c) <> (-1)%Z ->
  (forall n, last_dim t = Ok n -> Z.of_nat n = a_dim (c_at c) ->
     update_target_q t c = (Ok tt, mkC (set_a_ext (c_at c) (XTask cost lm (TJoint (mkJT (jt_final j) (Some t) (jt_qidx j))))) true (c_cache c))) /\
  ((forall n, last_dim t = Ok n -> Z.of_nat n <> a_dim (c_at c)) ->
     snd (update_target_q t c) = c /\
     fst (update_target_q t c) = Err (if Nat.eqb (ndim t) 0 then IndexError else ValueError)).
Proof.
  intros He Hd. unfold update_target_q, mbind, read, lift, raise, seta, ret. rewrite He. cbn.
  replace (a_dim (c_at c) =? -1)%Z with false by (symmetry; now apply Z.eqb_neq).
  destruct (last_dim_neq_spec t (a_dim (c_at c))) as [(-> & n & H1 & H2)|[(-> & n & H1 & H2)|(-> & H1)]].
  - split; [reflexivity|]. intros H. exfalso. eapply H; eauto.
  - split; [intros k Hk Hz; exfalso; congruence|]. intros _. cbn. split; [reflexivity|].
    apply last_dim_pos, Nat.eqb_neq in H1. now rewrite H1.
  - split; [intros k Hk; apply last_dim_pos in Hk; contradiction|]. intros _. cbn. rewrite H1. now split.
Qed.
Lemma set_target_frame_arr t c cost lm o t0 : a_ext (c_at c) = XTask cost lm (TFrame o t0) ->
  (last_dim t = Ok 7 ->
     update_target_frame (FArr t) c =
       (Ok tt, mkC (set_a_ext (c_at c) (XTask cost lm (TFrame o (mkT (t_shape t) (convert_frames (t_data t)))))) true (c_cache c))) /\
  (last_dim t <> Ok 7 ->
     snd (update_target_frame (FArr t) c) = c /\
     fst (update_target_frame (FArr t) c) = Err (if Nat.eqb (ndim t) 0 then IndexError else ValueError)).
Proof.
  intros He. unfold update_target_frame, mbind, read, lift, raise, seta. rewrite He. cbn.
  destruct (last_dim_neq_spec t 7%Z) as [(-> & n & H1 & H2)|[(-> & n & H1 & H2)|(-> & H1)]].
  - split; [reflexivity|]. intros H. exfalso. apply H. rewrite H1. f_equal. lia.
  - split; [intros H; rewrite H in H1; injection H1 as <-; lia|]. intros _. cbn. split; [reflexivity|].
    apply last_dim_pos, Nat.eqb_neq in H1. now rewrite H1.
  - split; [intros Hk; apply last_dim_pos in Hk; contradiction|]. intros _. cbn. rewrite H1. now split.
Qed.

(** Position barrier limits; [idx] is what [mask_idxs] returns. *)
Lemma limit_value_scalar n x t' : limit_value n (mkT [] [x]) t' -> t' = tvec (vconst n x).
Proof. intros [(y & H & ->)|[H _]]; [injection H as ->; reflexivity|discriminate H]. Qed.

Lemma set_p_min t c s p mk : wf_tensor t -> a_ext (c_at c) = XBarrier s (BPos p) -> a_mask (c_at c) = Some mk ->
  let n := List.length (a_mask_idxs (c_at c)) in
  (forall t', limit_value n t t' ->
     update_p_min t c =
       (Ok tt, if includes_min (pb_lt p) then
          mkC (set_a_ext (c_at c) (XBarrier s (BPos (mkPB (pb_obj p) (pb_lt p) (pb_lt_idxs p) t' (pb_max p))))) true (c_cache c) else c)) /\
  (ndim t <> 0 -> last_dim t <> Ok n -> update_p_min t c = (Err ValueError, c)).
Proof.
  intros Hw He Hm n. unfold update_p_min, mbind, read, lift, raise, seta, ret. rewrite He. cbn.
  assert (Hi : mask_idxs c = (Ok (a_mask_idxs (c_at c)), c)).
  { unfold mask_idxs, mseq, mbind, read. unfold force_mask, mbind, read, ret. rewrite Hm. reflexivity. }
  rewrite Hi. fold n. split.
  - intros t' [(x & -> & ->)|[Hl ->]].
    + cbn. destruct (includes_min (pb_lt p)); reflexivity.
    + pose proof (last_dim_pos _ _ Hl) as Hp. apply Nat.eqb_neq in Hp. rewrite Hp.
      unfold last_dim_neq. rewrite Hl. cbn. rewrite Z.eqb_refl. cbn. destruct (includes_min (pb_lt p)); reflexivity.
  - intros H0 Hl. apply Nat.eqb_neq in H0. rewrite H0.
    destruct (last_dim_neq_spec t (Z.of_nat n)) as [(-> & k & H1 & H2)|[(-> & k & H1 & H2)|(-> & H1)]].
    + exfalso. apply Hl. rewrite H1. f_equal. lia.
    + reflexivity.
    + apply Nat.eqb_neq in H0. contradiction.
Qed.
Lemma set_p_max t c s p mk : wf_tensor t -> a_ext (c_at c) = XBarrier s (BPos p) -> a_mask (c_at c) = Some mk ->
  let n := List.length (a_mask_idxs (c_at c)) in
  (forall t', limit_value n t t' ->
     update_p_max t c =
       (Ok tt, if includes_max (pb_lt p) then
          mkC (set_a_ext (c_at c) (XBarrier s (BPos (mkPB (pb_obj p) (pb_lt p) (pb_lt_idxs p) (pb_min p) t')))) true (c_cache c) else c)) /\
  (ndim t <> 0 -> last_dim t <> Ok n -> update_p_max t c = (Err ValueError, c)).
Proof.
  intros Hw He Hm n. unfold update_p_max, mbind, read, lift, raise, seta, ret. rewrite He. cbn.
  assert (Hi : mask_idxs c = (Ok (a_mask_idxs (c_at c)), c)).
  { unfold mask_idxs, mseq, mbind, read. unfold force_mask, mbind, read, ret. rewrite Hm. reflexivity. }
  rewrite Hi. fold n. split.
  - intros t' [(x & -> & ->)|[Hl ->]].
    + cbn. destruct (includes_max (pb_lt p)); reflexivity.
    + pose proof (last_dim_pos _ _ Hl) as Hp. apply Nat.eqb_neq in Hp. rewrite Hp.
      unfold last_dim_neq. rewrite Hl. cbn. rewrite Z.eqb_refl. cbn. destruct (includes_max (pb_lt p)); reflexivity.
  - intros H0 Hl. apply Nat.eqb_neq in H0. rewrite H0.
    destruct (last_dim_neq_spec t (Z.of_nat n)) as [(-> & k & H1 & H2)|[(-> & k & H1 & H2)|(-> & H1)]].
    + exfalso. apply Hl. rewrite H1. f_equal. lia.
    + reflexivity.
    + apply Nat.eqb_neq in H0. contradiction.
Qed.

(** ** Histories in which every binding succeeded *)
Lemma ok_history (P : attrs -> Prop) os c :
  Forall sound_op os -> binds_ok os c -> P (c_at c) ->
  (forall a a', P a -> astep a a' -> P a') ->
  (forall c m, wf_joints m -> fst (update_model m c) = Ok tt -> P (c_at c) -> P (c_at (snd (update_model m c)))) ->
  P (c_at (history os c)).
Proof.
  intros Ho Hb Hp Hs Hm. revert c Hb Hp. induction Ho as [|o os Ha _ IH]; intros c Hb Hp; [exact Hp|].
  cbn in Hb. destruct Hb as [Hb0 Hb]. cbn. apply IH; [exact Hb|].
  assert (G : api_op o -> asteps (c_at c) (c_at (after o c)) -> P (c_at (after o c))).
  { intros _ H. eapply asteps_inv; eauto. }
  destruct o; try (apply G; [exact I|apply api_steps; [exact I|intros; discriminate]]).
  - unfold after. cbn [run_cop]. apply Hm; [exact Ha|exact Hb0|exact Hp].
  - destruct Ha.
Qed.

Lemma mask_fits_dec m f : mask_fits m f \/ ~ mask_fits m f.
Proof. destruct f as [f|]; cbn; [lia|now left]. Qed.

(** Joint task *)
Definition jt_unbound (fm : option (list Z)) (a : attrs) : Prop :=
  a_model a = None /\ a_dim a = (-1)%Z /\ a_mask a = None /\
  exists cost lm t, a_ext a = XTask cost lm (TJoint (mkJT fm t None)).
Definition jt_bound (m : mjmodel) (fm : option (list Z)) (a : attrs) : Prop :=
  let n := List.length (selected m fm) in
  wf_joints m /\ mask_fits m fm /\ a_model a = Some m /\ a_dim a = Z.of_nat n /\
  a_mask a = Some (expandf jnt_nv (m_jnt_type m) (fin m fm)) /\ a_mask_idxs a = vidx_of m fm /\
  exists cost lm t, a_ext a = XTask cost lm (TJoint (mkJT fm (Some t) (Some (qidx_of m fm)))) /\ last_dim t = Ok n.
Definition jt_inv fm a := jt_unbound fm a \/ exists m, jt_bound m fm a.

Lemma jt_bound_step m fm a a' : jt_bound m fm a -> astep a a' -> jt_bound m fm a'.
Proof.
  intros (Hw & Hf & H1 & H2 & H3 & H4 & cost & lm & t & He & Ht) Hs.
  assert (K : a_model a' = Some m /\ a_dim a' = Z.of_nat (List.length (selected m fm)) /\
    a_mask a' = Some (expandf jnt_nv (m_jnt_type m) (fin m fm)) /\ a_mask_idxs a' = vidx_of m fm /\
    exists cost lm t, a_ext a' = XTask cost lm (TJoint (mkJT fm (Some t) (Some (qidx_of m fm)))) /\ last_dim t = Ok (List.length (selected m fm))).
  { destruct Hs; try (rewrite He in *; discriminate); cbn; try (repeat split; eauto 6; fail).
    - rewrite He in H. injection H as -> -> <-. repeat split; eauto 6.
    - rewrite He in H. injection H as -> -> <-. repeat split; auto. cbn. exists c, lm0, t0. split; [reflexivity|].
      destruct H0 as [H0|(k & H0 & H0')]; [lia|]. rewrite H0. f_equal. lia.
    - unfold forced in H. rewrite H3 in H. injection H as <-. repeat split; eauto 6. }
  unfold jt_bound. tauto.
Qed.
Lemma jt_unbound_step fm a a' : jt_unbound fm a -> astep a a' -> jt_unbound fm a'.
Proof.
  intros (H1 & H2 & H3 & cost & lm & t & He) Hs. unfold jt_unbound.
  destruct Hs; try (rewrite He in *; discriminate); cbn; try (repeat split; eauto 6; fail).
  - rewrite He in H. injection H as -> -> <-. repeat split; eauto 6.
  - rewrite He in H. injection H as -> -> <-. repeat split; eauto 6.
  - unfold forced in H. rewrite H3, H2 in H. discriminate.
Qed.
Lemma jt_inv_step fm a a' : jt_inv fm a -> astep a a' -> jt_inv fm a'.
Proof.
  intros [H|[m H]] Hs; [left; eapply jt_unbound_step; eauto|right; exists m; eapply jt_bound_step; eauto].
Qed.
Lemma jt_bind_ok fm c m : wf_joints m -> fst (update_model m c) = Ok tt -> jt_inv fm (c_at c) ->
  jt_bound m fm (c_at (snd (update_model m c))).
Proof.
  intros Hw Hu Hi.
  assert (He : exists cost lm t q, a_ext (c_at c) = XTask cost lm (TJoint (mkJT fm t q))).
  { destruct Hi as [(_ & _ & _ & cost & lm & t & He)|(m' & _ & _ & _ & _ & _ & _ & cost & lm & t & He & _)]; eauto 6. }
  destruct He as (cost & lm & t & q & He). destruct (joint_task_bind m c _ _ _ Hw He) as [Hb Hg]. cbn [jt_final jt_target] in Hb, Hg.
  destruct (mask_fits_dec m fm) as [Hf|Hf]; [|destruct (Hb Hf) as [Hb' _]; congruence].
  destruct (Hg Hf) as (H0 & H1 & H2 & H3 & H4 & _ & H5). unfold jt_bound.
  split; [exact Hw|]. split; [exact Hf|]. split; [exact H2|]. split; [exact H1|]. split; [exact H4|]. split; [exact H3|].
  destruct t as [t|].
  - do 3 eexists. split; [exact H5|]. rewrite H0 in Hu. destruct (last_dim t) as [k|]; cbn in Hu; [|discriminate].
    destruct (Nat.eqb k (List.length (selected m fm))) eqn:E; [|discriminate]. apply Nat.eqb_eq in E. now subst.
  - do 3 eexists. split; [exact H5|]. rewrite last_dim_tvec, vzero_length. reflexivity.
Qed.
Lemma jt_new name cost gain gf lm fm c : new_joint_task name cost gain gf lm fm = Ok c -> jt_unbound fm (c_at c).
Proof.
  unfold new_joint_task. destruct (init_task name cost gain gf lm None _) as [a'|] eqn:E; cbn; [|discriminate].
  intros H; injection H as <-. unfold init_task in E.
  destruct (init_component name gain gf None _) as [a''|] eqn:E'; cbn in E; [|discriminate].
  destruct (Rlt_dec lm 0); [discriminate|]. destruct (Nat.ltb 2 (ndim cost)); [discriminate|]. injection E as ->.
  destruct (init_comp_mask _ _ _ _ _ _ E') as (H1 & _ & H2 & _ & H3 & H4 & _). cbn in H4. unfold jt_unbound. cbn. eauto 8.
Qed.
Lemma jt_history name cost gain gf lm fm c os : new_joint_task name cost gain gf lm fm = Ok c ->
  Forall sound_op os -> binds_ok os c -> jt_inv fm (c_at (history os c)).
Proof.
  intros Hn Ho Hb. apply ok_history; auto.
  - left. eapply jt_new; eauto.
  - apply jt_inv_step.
  - intros c' m Hw Hu Hi. right. exists m. now apply jt_bind_ok.
Qed.

(** Joint barrier *)
Definition jb_unbound (fm : option (list Z)) (sdg : R) (a : attrs) : Prop :=
  a_model a = None /\ a_dim a = (-1)%Z /\ a_mask a = None /\
  exists lo hi, a_ext a = XBarrier sdg (BJoint (mkJB fm lo hi None)).
Definition jb_bound (m : mjmodel) (fm : option (list Z)) (sdg : R) (a : attrs) : Prop :=
  let n := List.length (selected m fm) in
  wf_joints m /\ mask_fits m fm /\ a_model a = Some m /\ a_dim a = (2 * Z.of_nat n)%Z /\
  a_mask a = Some (expandf jnt_nv (m_jnt_type m) (fin m fm)) /\ a_mask_idxs a = vidx_of m fm /\
  exists lo hi, a_ext a = XBarrier sdg (BJoint (mkJB fm (Some lo) (Some hi) (Some (qidx_of m fm)))).
Definition jb_inv fm sdg a := jb_unbound fm sdg a \/ exists m, jb_bound m fm sdg a.

Lemma jb_bound_step m fm sdg a a' : jb_bound m fm sdg a -> astep a a' -> jb_bound m fm sdg a'.
Proof.
  intros (Hw & Hf & H1 & H2 & H3 & H4 & lo & hi & He) Hs. unfold jb_bound. split; [exact Hw|]. split; [exact Hf|].
  destruct Hs; try (rewrite He in *; discriminate); cbn -[Z.mul]; try (repeat split; eauto 6; fail).
  - rewrite He in H. injection H as -> <-. cbn -[Z.mul]. repeat split; eauto 6.
  - rewrite He in H. injection H as -> <-. cbn -[Z.mul]. repeat split; eauto 6.
  - unfold forced in H. rewrite H3 in H. injection H as <-. repeat split; eauto 6.
Qed.
Lemma jb_unbound_step fm sdg a a' : jb_unbound fm sdg a -> astep a a' -> jb_unbound fm sdg a'.
Proof.
  intros (H1 & H2 & H3 & lo & hi & He) Hs. unfold jb_unbound.
  destruct Hs; try (rewrite He in *; discriminate); cbn; try (repeat split; eauto 6; fail).
  - rewrite He in H. injection H as -> <-. cbn -[Z.mul]. repeat split; eauto 6.
  - rewrite He in H. injection H as -> <-. cbn -[Z.mul]. repeat split; eauto 6.
  - unfold forced in H. rewrite H3, H2 in H. discriminate.
Qed.
Lemma jb_inv_step fm sdg a a' : jb_inv fm sdg a -> astep a a' -> jb_inv fm sdg a'.
Proof.
  intros [H|[m H]] Hs; [left; eapply jb_unbound_step; eauto|right; exists m; eapply jb_bound_step; eauto].
Qed.
Lemma jb_bind_ok fm sdg c m : wf_joints m -> fst (update_model m c) = Ok tt -> jb_inv fm sdg (c_at c) ->
  jb_bound m fm sdg (c_at (snd (update_model m c))).
Proof.
  intros Hw Hu Hi.
  assert (He : exists lo hi q, a_ext (c_at c) = XBarrier sdg (BJoint (mkJB fm lo hi q))).
  { destruct Hi as [(_ & _ & _ & lo & hi & He)|(m' & _ & _ & _ & _ & _ & _ & lo & hi & He)]; eauto 6. }
  destruct He as (lo & hi & q & He). destruct (joint_barrier_bind m c _ _ Hw He) as [Hb Hg]. cbn [jb_final jb_qmin jb_qmax] in Hb, Hg.
  destruct (mask_fits_dec m fm) as [Hf|Hf]; [|destruct (Hb Hf) as [Hb' _]; congruence].
  destruct (Hg Hf) as (H1 & H2 & H3 & H4 & _ & _ & _ & H5). unfold jb_bound. specialize (H5 Hu).
  split; [exact Hw|]. split; [exact Hf|]. split; [exact H2|]. split; [exact H1|]. split; [exact H4|]. split; [exact H3|].
  destruct lo, hi; eauto.
Qed.
Lemma jb_new name gain gf sdg lo hi fm c : new_joint_barrier name gain gf sdg lo hi fm = Ok c -> jb_unbound fm sdg (c_at c).
Proof.
  unfold new_joint_barrier, init_barrier. destruct (init_component name gain gf None _) as [a'|] eqn:E; cbn; [|discriminate].
  intros H; injection H as <-.
  destruct (init_comp_mask _ _ _ _ _ _ E) as (H1 & _ & H2 & _ & H3 & H4 & _). cbn in H4. unfold jb_unbound. cbn. eauto 8.
Qed.
Lemma jb_history name gain gf sdg lo hi fm c os : new_joint_barrier name gain gf sdg lo hi fm = Ok c ->
  Forall sound_op os -> binds_ok os c -> jb_inv fm sdg (c_at (history os c)).
Proof.
  intros Hn Ho Hb. apply ok_history; auto.
  - left. eapply jb_new; eauto.
  - apply jb_inv_step.
  - intros c' m Hw Hu Hi. right. exists m. now apply jb_bind_ok.
Qed.

(** ** Self collision *)
#[local] Arguments generate_collision_pairs : simpl never.
#[local] Arguments exclude_set : simpl never.
#[local] Arguments zrange : simpl never.
Definition listed (m : mjmodel) (bs : list cbody) : list cbody :=
  match bs with [] => map CBInt (zrange 0 (Z.of_nat (m_nbody m))) | _ => bs end.
Definition set_self (a : attrs) (m : mjmodel) (s : self_at) (d : Z) sdg : attrs :=
  set_a_dim (set_a_ext (set_a_model a m) (XBarrier sdg (BSelf s))) d.
Lemma self_bind m c sdg s : a_ext (c_at c) = XBarrier sdg (BSelf s) ->
  match exclude_set m (sc_excl_raw s) [] with
  | Err e => fst (update_model m c) = Err e
  | Ok ex =>
      match generate_collision_pairs m (listed m (sc_bodies s)) ex with
      | Err e => fst (update_model m c) = Err e
      | Ok ps =>
          let n := if (sc_n s =? -1)%Z then Z.of_nat (List.length ps) else sc_n s in
          update_model m c =
            (Ok tt, mkC (set_self (c_at c) m (mkSC (sc_dmin s) (listed m (sc_bodies s)) (sc_excl_raw s) (Some ex) (Some ps) n) n sdg)
                        true (c_cache c))
      end
  end.
Proof.
  intros He.
  assert (HU : update_model m c = update_model_self m c) by (unfold update_model, mbind, read; now rewrite He).
  rewrite HU. unfold update_model_self, mseq, mbind, seta, read, lift, ret, self_of, upd_self. cbn. rewrite He. cbn.
  destruct (sc_bodies s) as [|b bs] eqn:Eb; cbn; rewrite ?He; cbn;
   (destruct (exclude_set m (sc_excl_raw s) []) as [ex|e]; cbn; [|reflexivity]); rewrite ?He; cbn; rewrite ?Eb; cbn [listed];
   (match goal with |- context [generate_collision_pairs m ?b ex] => destruct (generate_collision_pairs m b ex) as [ps|e] end; cbn; [|reflexivity]);
   rewrite ?He; cbn; rewrite ?Eb;
   (destruct (sc_n s =? -1)%Z; cbn; rewrite ?He; cbn; unfold set_self, set_a_ext, set_a_model, set_a_dim; cbn; reflexivity).
Qed.

(** Arguments of a self-collision barrier over histories. *)
Definition self_inv (bs : list cbody) (er : list (cbody * cbody)) (dm : R) (a : attrs) : Prop :=
  exists sdg ex ps n, a_ext a = XBarrier sdg (BSelf (mkSC dm bs er ex ps n)).
Lemma self_inv_step bs er dm a a' : self_inv bs er dm a -> astep a a' -> self_inv bs er dm a'.
Proof.
  intros (sdg & ex & ps & n & He) Hs. unfold self_inv.
  destruct Hs; try (rewrite He in *; discriminate); cbn; eauto 6.
  destruct (forced_other _ _ H) as (_ & _ & _ & _ & _ & ->). eauto 6.
Qed.
Lemma self_inv_bind bs er dm c m : bs <> [] -> self_inv bs er dm (c_at c) -> self_inv bs er dm (c_at (snd (update_model m c))).
Proof.
  intros Hb (sdg & ex & ps & n & He).
  assert (HU : update_model m c = update_model_self m c) by (unfold update_model, mbind, read; now rewrite He).
  rewrite HU. unfold update_model_self, mseq, mbind, seta, read, lift, ret, self_of, upd_self. cbn. rewrite He. cbn.
  destruct bs as [|b bs]; [contradiction|]. cbn.
  destruct (exclude_set m er []) as [ex'|e]; cbn; [|unfold self_inv; cbn; rewrite He; eauto 6]. rewrite ?He. cbn.
  destruct (generate_collision_pairs m (b :: bs) ex') as [ps'|e]; cbn; [|unfold self_inv; cbn; eauto 6].
  destruct (n =? -1)%Z; cbn; unfold self_inv; cbn; eauto 6.
Qed.
Lemma self_new name gain gf sdg dm bs er n c : new_self_collision name gain gf sdg dm bs er n = Ok c ->
  a_ext (c_at c) = XBarrier sdg (BSelf (mkSC dm bs er None None n)).
Proof.
  unfold new_self_collision, init_barrier. destruct (init_component name gain gf None _) as [a'|] eqn:E; cbn; [|discriminate].
  intros H; injection H as <-. now destruct (init_comp_mask _ _ _ _ _ _ E) as (H1 & _).
Qed.
Lemma self_history name gain gf sdg dm bs er n c os : new_self_collision name gain gf sdg dm bs er n = Ok c -> bs <> [] ->
  Forall api_op os -> self_inv bs er dm (c_at (history os c)).
Proof.
  intros Hn Hb Ho. apply api_history; auto.
  - unfold self_inv. rewrite (self_new _ _ _ _ _ _ _ _ _ Hn). eauto 6.
  - apply self_inv_step.
  - intros. now apply self_inv_bind.
Qed.

(** ** Model equality constraints *)
Lemma count_eq_ok ts : Forall eq_supported ts -> forall n, count_eq ts n = Ok (n + fold_right (fun t k => eq_rows t + k) 0 ts).
Proof.
  induction 1 as [|t ts Ht _ IH]; intros n; cbn; [f_equal; lia|].
  destruct t; cbn in *; try contradiction; rewrite IH; f_equal; lia.
Qed.
Lemma count_eq_bad ts : ~ Forall eq_supported ts -> forall n, count_eq ts n = Err ValueError.
Proof.
  induction ts as [|t ts IH]; intros H n; [exfalso; apply H; constructor|].
  destruct t; cbn; try (apply IH; intros H'; apply H; constructor; cbn; auto; fail). reflexivity.
Qed.
Lemma eq_supported_dec ts : Forall eq_supported ts \/ ~ Forall eq_supported ts.
Proof.
  destruct (Forall_dec eq_supported (fun t => match t with EqOther _ => right (fun x => x) | _ => left I end) ts); auto.
Qed.
Lemma equality_bind m c act h s : a_ext (c_at c) = XConstraint act h s CModelEq -> List.length (m_eq_type m) = m_neq m ->
  let d := fold_right (fun t k => eq_rows t + k) 0 (m_eq_type m) in
  (Forall eq_supported (m_eq_type m) ->
     update_model m c = (Ok tt, mkC (set_a_dim (set_a_mask_idxs (set_a_model (c_at c) m) (map Z.of_nat (seq 0 d))) (Z.of_nat d)) true (c_cache c))) /\
  (~ Forall eq_supported (m_eq_type m) -> fst (update_model m c) = Err ValueError).
Proof.
  intros He Hl d.
  assert (HU : update_model m c = update_model_equality m c) by (unfold update_model, mbind, read; now rewrite He).
  rewrite HU. unfold update_model_equality, mseq, mbind, seta, lift. cbn -[zrange]. rewrite Hl, Nat.ltb_irrefl, <- Hl, firstn_all.
  split; intros H.
  - rewrite (count_eq_ok _ H 0). cbn -[zrange]. fold d. rewrite zrange_seq. reflexivity.
  - rewrite (count_eq_bad _ H). reflexivity.
Qed.
