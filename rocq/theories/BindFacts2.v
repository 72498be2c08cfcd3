(** Object components, position barriers and targets over API histories. *)
From Verif Require Import Base Lin LinFacts Mjx Typing Component SpecComponent ComponentFacts ComponentFacts2
  SpecJoint JointFacts ApiSteps BindFacts.
Open Scope R_scope.
Open Scope Z_scope.
Open Scope nat_scope.

#[local] Arguments Nat.ltb : simpl never.
#[local] Arguments Nat.eqb : simpl never.
#[local] Arguments last_dim : simpl never.
#[local] Arguments argwhere : simpl never.

(** ** Names *)
Lemma objtype_eqb_eq a b : objtype_eqb a b = true <-> a = b.
Proof.
  destruct a, b; cbn; split; intros H; try discriminate; try reflexivity.
  - apply Nat.eqb_eq in H. now subst.
  - injection H as ->. apply Nat.eqb_refl.
Qed.
Lemma lookup_in t ty s : (lookup_name t ty s = -1)%Z \/ In (ty, s, lookup_name t ty s) t.
Proof.
  induction t as [|((ty', s'), i) t IH]; cbn; [now left|].
  destruct (objtype_eqb ty ty' && String.eqb s s')%bool eqn:E.
  - right. left. apply andb_prop in E. destruct E as [E1 E2]. apply objtype_eqb_eq in E1. apply String.eqb_eq in E2. now subst.
  - destruct IH as [->|H]; [now left|right; now right].
Qed.
Lemma lookup_found t ty s i : In (ty, s, i) t -> (forall i', In (ty, s, i') t -> i' = i) -> lookup_name t ty s = i.
Proof.
  induction t as [|((ty', s'), i0) t IH]; cbn; intros H Hu; [destruct H|].
  destruct (objtype_eqb ty ty' && String.eqb s s')%bool eqn:E.
  - apply andb_prop in E. destruct E as [E1 E2]. apply objtype_eqb_eq in E1. apply String.eqb_eq in E2. subst. apply Hu. now left.
  - apply IH.
    + destruct H as [H|H]; [|exact H]. injection H as -> -> ->.
      rewrite String.eqb_refl, (proj2 (objtype_eqb_eq ty ty) eq_refl) in E. discriminate.
    + intros i' Hi. apply Hu. now right.
Qed.
Lemma name2id_spec m ty s i : wf_names m -> (has_object m ty s i <-> name2id m ty s = i /\ i <> (-1)%Z).
Proof.
  intros [H0 Hu]. unfold has_object, name2id. split.
  - intros H. split; [|apply H0 in H; lia]. apply lookup_found; [exact H|]. intros i' Hi. eauto.
  - intros [H1 H2]. destruct (lookup_in (m_names m) ty s) as [H|H]; congruence.
Qed.

(** ** Binding an object component *)
Lemma obj_bind m c o : object_of (c_at c) = Some o ->
  update_model m c =
  (if (name2id m (ob_type o) (ob_name o) =? -1)%Z
   then (Err ValueError, mkC (set_obj_id (c_at c) (name2id m (ob_type o) (ob_name o))) true (c_cache c))
   else (Ok tt, mkC (set_a_model (set_obj_id (c_at c) (name2id m (ob_type o) (ob_name o))) m) true (c_cache c))).
Proof.
  intros H. unfold update_model, mbind, read.
  assert (G : update_model_obj m o c = (if (name2id m (ob_type o) (ob_name o) =? -1)%Z
   then (Err ValueError, mkC (set_obj_id (c_at c) (name2id m (ob_type o) (ob_name o))) true (c_cache c))
   else (Ok tt, mkC (set_a_model (set_obj_id (c_at c) (name2id m (ob_type o) (ob_name o))) m) true (c_cache c)))).
  { unfold update_model_obj, mseq, mbind, seta, raise. cbn. destruct (_ =? _)%Z; reflexivity. }
  unfold object_of in H. destruct (a_ext (c_at c)) as [? ? []|? []|]; try discriminate; injection H as ->; exact G.
Qed.
Lemma object_set_id a o i : object_of a = Some o -> object_of (set_obj_id a i) = Some (mkO (ob_name o) (ob_type o) i).
Proof.
  unfold object_of, set_obj_id. destruct (a_ext a) as [? ? []|? []|]; try discriminate; intros H; injection H as <-; reflexivity.
Qed.
Lemma set_obj_id_other a i : a_name (set_obj_id a i) = a_name a /\ a_model (set_obj_id a i) = a_model a /\
  a_gain (set_obj_id a i) = a_gain a /\ a_gain_fn (set_obj_id a i) = a_gain_fn a /\
  a_dim (set_obj_id a i) = a_dim a /\ a_mask (set_obj_id a i) = a_mask a /\ a_mask_idxs (set_obj_id a i) = a_mask_idxs a.
Proof. unfold set_obj_id. destruct (a_ext a) as [? ? []|? []|]; repeat split. Qed.

Lemma object_binding m c o : wf_names m -> object_of (c_at c) = Some o ->
  (fst (update_model m c) = Ok tt <-> exists i, has_object m (ob_type o) (ob_name o) i) /\
  (fst (update_model m c) <> Ok tt -> fst (update_model m c) = Err ValueError) /\
  (forall i, has_object m (ob_type o) (ob_name o) i ->
     object_of (c_at (snd (update_model m c))) = Some (mkO (ob_name o) (ob_type o) i) /\
     a_model (c_at (snd (update_model m c))) = Some m).
Proof.
  intros Hw Ho. rewrite (obj_bind _ _ _ Ho). destruct (_ =? -1)%Z eqn:E; cbn.
  - apply Z.eqb_eq in E. repeat split; try discriminate.
    + intros [i Hi]. apply name2id_spec in Hi; [|exact Hw]. destruct Hi; congruence.
    + intros. exfalso. apply name2id_spec in H; [|exact Hw]. destruct H; congruence.
    + intros. exfalso. apply name2id_spec in H; [|exact Hw]. destruct H; congruence.
  - apply Z.eqb_neq in E. split; [|split].
    + split; [|reflexivity]. intros _. eexists. apply name2id_spec; [exact Hw|]. split; [reflexivity|exact E].
    + congruence.
    + intros i Hi. apply name2id_spec in Hi; [|exact Hw]. destruct Hi as [Hi _]. split; [|reflexivity].
      rewrite Hi. erewrite <- object_set_id; [|exact Ho]. reflexivity.
Qed.

(** ** Fixed-dimension components over API histories *)
Definition mask_state (mk0 : option (list Z)) (d : nat) (a : attrs) : Prop :=
  match mk0 with
  | Some mk => a_mask a = Some mk /\ a_mask_idxs a = argwhere mk
  | None => a_mask a = None \/ (a_mask a = Some (repeat 1%Z d) /\ a_mask_idxs a = zrange 0 (Z.of_nat d))
  end.
Definition idxs_of (mk0 : option (list Z)) (d : nat) : list Z :=
  match mk0 with Some mk => argwhere mk | None => map Z.of_nat (seq 0 d) end.

Lemma zrange_seq d : zrange 0 (Z.of_nat d) = map Z.of_nat (seq 0 d).
Proof. unfold zrange. rewrite Z.sub_0_r, Nat2Z.id. apply map_ext. intros; lia. Qed.

Lemma mask_state_read mk0 d c : a_dim (c_at c) = Z.of_nat d -> mask_state mk0 d (c_at c) ->
  fst (mask_idxs c) = Ok (idxs_of mk0 d).
Proof.
  intros Hd H. destruct mk0 as [mk|]; cbn in *.
  - destruct H as [H1 H2]. destruct (mask_idxs_explicit _ _ H1) as [-> _]. now rewrite H2.
  - destruct H as [H|[H1 H2]].
    + now destruct (mask_idxs_default _ _ H Hd) as [-> _].
    + destruct (mask_idxs_explicit _ _ H1) as [-> _]. now rewrite H2, zrange_seq.
Qed.
Lemma mask_state_forced mk0 d a a' : a_dim a = Z.of_nat d -> mask_state mk0 d a -> forced a = Ok a' -> mask_state mk0 d a'.
Proof.
  intros Hd. unfold forced, get_default_mask, dim. rewrite Hd, of_nat_neq_m1. cbn. rewrite zsize_nat. cbn.
  destruct (a_mask a) as [l|] eqn:E.
  - intros H F. injection F as <-. exact H.
  - intros H F. injection F as <-. destruct mk0 as [mk|]; cbn in *; [destruct H; congruence|]. right. now split.
Qed.

(** Attribute changes keep name, dimension and mask state. *)
Lemma astep_mask mk0 d a a' : a_dim a = Z.of_nat d -> mask_state mk0 d a -> astep a a' ->
  a_dim a' = Z.of_nat d /\ mask_state mk0 d a'.
Proof.
  intros Hd Hm H. destruct H; try (split; [exact Hd|exact Hm]).
  split; [|eapply mask_state_forced; eauto]. destruct (forced_other _ _ H) as (_ & _ & _ & _ & -> & _). exact Hd.
Qed.

Ltac kinds E := repeat match goal with
  | H : a_ext _ = _ |- _ => rewrite E in H; try discriminate H; try (injection H as ?; subst)
  end.

(** CoM task *)
Definition com_inv (mk0 : option (list Z)) (d : nat) (a : attrs) : Prop :=
  a_dim a = Z.of_nat d /\ mask_state mk0 d a /\
  exists cost lm t, a_ext a = XTask cost lm (TCom t) /\ last_dim t = Ok d.
Lemma com_inv_step mk0 d a a' : com_inv mk0 d a -> astep a a' -> com_inv mk0 d a'.
Proof.
  intros (Hd & Hm & cost & lm & t & He & Ht) Hs. destruct (astep_mask _ _ _ _ Hd Hm Hs) as [Hd' Hm'].
  split; [exact Hd'|]. split; [exact Hm'|]. clear Hd' Hm'.
  destruct Hs; try (rewrite He in *; discriminate); cbn; eauto 6.
  - rewrite He in H. injection H as -> -> <-. eauto 6.
  - rewrite He in H. injection H as -> -> ->. exists c, lm0, t1. split; [reflexivity|]. rewrite H0. f_equal. lia.
  - destruct (forced_other _ _ H) as (_ & _ & _ & _ & _ & ->). eauto 6.
Qed.
Lemma com_inv_bind mk0 d c m : com_inv mk0 d (c_at c) -> com_inv mk0 d (c_at (snd (update_model m c))).
Proof.
  intros (Hd & Hm & cost & lm & t & He & Ht). unfold update_model, mbind, read. rewrite He. cbn.
  split; [exact Hd|]. split; [exact Hm|]. cbn. eauto 6.
Qed.

(** Position task *)
Definition pos_inv (mk0 : option (list Z)) (d : nat) (on : string) (ty : objtype) (a : attrs) : Prop :=
  a_dim a = Z.of_nat d /\ mask_state mk0 d a /\
  exists cost lm t i, a_ext a = XTask cost lm (TPos (mkO on ty i) t) /\ last_dim t = Ok d.
Lemma pos_inv_step mk0 d on ty a a' : pos_inv mk0 d on ty a -> astep a a' -> pos_inv mk0 d on ty a'.
Proof.
  intros (Hd & Hm & cost & lm & t & i & He & Ht) Hs. destruct (astep_mask _ _ _ _ Hd Hm Hs) as [Hd' Hm'].
  split; [exact Hd'|]. split; [exact Hm'|]. clear Hd' Hm'.
  destruct Hs; try (rewrite He in *; discriminate); cbn; eauto 7.
  - rewrite He in H. injection H as -> -> <-. eauto 7.
  - rewrite He in H. injection H as -> -> <- ->. exists c, lm0, t1, i. split; [reflexivity|]. rewrite H0. f_equal. lia.
  - destruct (forced_other _ _ H) as (_ & _ & _ & _ & _ & ->). eauto 7.
Qed.
Lemma pos_inv_bind mk0 d on ty c m : pos_inv mk0 d on ty (c_at c) -> pos_inv mk0 d on ty (c_at (snd (update_model m c))).
Proof.
  intros (Hd & Hm & cost & lm & t & i & He & Ht).
  assert (Ho : object_of (c_at c) = Some (mkO on ty i)) by (unfold object_of; now rewrite He).
  rewrite (obj_bind m c _ Ho).
  assert (G : forall j, pos_inv mk0 d on ty (set_obj_id (c_at c) j)).
  { intros k. destruct (set_obj_id_other (c_at c) k) as (_ & _ & _ & _ & h1 & h2 & h3).
    split; [now rewrite h1|]. split; [unfold mask_state in *; rewrite h2, h3; exact Hm|].
    unfold set_obj_id. rewrite He. do 4 eexists. split; [reflexivity|exact Ht]. }
  destruct (_ =? _)%Z; cbn; [apply G|]. destruct (G (name2id m (ob_type (mkO on ty i)) (ob_name (mkO on ty i)))) as (a1 & a2 & a3).
  split; [exact a1|]. split; [exact a2|exact a3].
Qed.

(** Frame task: the target is whatever SE3 was set, or a converted array. *)
Definition frame_inv (mk0 : option (list Z)) (d : nat) (on : string) (ty : objtype) (a : attrs) : Prop :=
  a_dim a = Z.of_nat d /\ mask_state mk0 d a /\
  exists cost lm t i, a_ext a = XTask cost lm (TFrame (mkO on ty i) t).
Lemma frame_inv_step mk0 d on ty a a' : frame_inv mk0 d on ty a -> astep a a' -> frame_inv mk0 d on ty a'.
Proof.
  intros (Hd & Hm & cost & lm & t & i & He) Hs. destruct (astep_mask _ _ _ _ Hd Hm Hs) as [Hd' Hm'].
  split; [exact Hd'|]. split; [exact Hm'|]. clear Hd' Hm'.
  destruct Hs; try (rewrite He in *; discriminate); cbn; eauto 7.
  - rewrite He in H. injection H as -> -> <-. eauto 7.
  - rewrite He in H. injection H as -> -> <- ->. eauto 7.
  - destruct (forced_other _ _ H) as (_ & _ & _ & _ & _ & ->). eauto 7.
Qed.
Lemma frame_inv_bind mk0 d on ty c m : frame_inv mk0 d on ty (c_at c) -> frame_inv mk0 d on ty (c_at (snd (update_model m c))).
Proof.
  intros (Hd & Hm & cost & lm & t & i & He).
  assert (Ho : object_of (c_at c) = Some (mkO on ty i)) by (unfold object_of; now rewrite He).
  rewrite (obj_bind m c _ Ho).
  assert (G : forall j, frame_inv mk0 d on ty (set_obj_id (c_at c) j)).
  { intros k. destruct (set_obj_id_other (c_at c) k) as (_ & _ & _ & _ & h1 & h2 & h3).
    split; [now rewrite h1|]. split; [unfold mask_state in *; rewrite h2, h3; exact Hm|].
    unfold set_obj_id. rewrite He. do 4 eexists. reflexivity. }
  destruct (_ =? _)%Z; cbn; [apply G|]. destruct (G (name2id m (ob_type (mkO on ty i)) (ob_name (mkO on ty i)))) as (a1 & a2 & a3).
  split; [exact a1|]. split; [exact a2|exact a3].
Qed.

(** Custom components keep dimension and mask. *)
Definition custom_inv (mk0 : option (list Z)) (d : nat) (a : attrs) : Prop :=
  a_dim a = Z.of_nat d /\ mask_state mk0 d a /\
  ((exists cost lm f, a_ext a = XTask cost lm (TCustom f)) \/ (exists s f, a_ext a = XBarrier s (BCustom f)) \/
   (exists x h s f, a_ext a = XConstraint x h s (CCustom f))).
Lemma custom_inv_step mk0 d a a' : custom_inv mk0 d a -> astep a a' -> custom_inv mk0 d a'.
Proof.
  intros (Hd & Hm & He) Hs. destruct (astep_mask _ _ _ _ Hd Hm Hs) as [Hd' Hm'].
  split; [exact Hd'|]. split; [exact Hm'|]. clear Hd' Hm'.
  destruct He as [(cost & lm & f & He)|[(s & f & He)|(x & h & s & f & He)]];
  destruct Hs; try (rewrite He in *; discriminate); cbn; eauto 8;
  try (match goal with F : forced _ = Ok _ |- _ => destruct (forced_other _ _ F) as (_ & _ & _ & _ & _ & ->); eauto 8 end).
  rewrite He in H. injection H as -> -> <-. eauto 8.
Qed.
Lemma custom_inv_bind mk0 d c m : custom_inv mk0 d (c_at c) -> custom_inv mk0 d (c_at (snd (update_model m c))).
Proof.
  intros (Hd & Hm & He). unfold update_model, mbind, read.
  destruct He as [(cost & lm & f & He)|[(s & f & He)|(x & h & s & f & He)]]; rewrite He; cbn;
  (split; [exact Hd|]; split; [exact Hm|]); cbn; rewrite He; eauto 8.
Qed.

(** Position barrier *)
Definition pb_idxs (lt : limit_type) (n : nat) : list Z :=
  let z := Z.of_nat n in
  match lt with LMin => zrange 0 z | LMax => zrange z (2 * z) | LBoth => zrange 0 (2 * z) end.
Definition pb_dim (lt : limit_type) (n : nat) : nat := match lt with LBoth => 2 * n | _ => n end.
Definition pbar_inv (mk : list Z) (on : string) (ty : objtype) (sdg : R) (lt : limit_type) (a : attrs) : Prop :=
  let n := List.length (argwhere mk) in
  a_dim a = Z.of_nat (pb_dim lt n) /\ mask_state (Some mk) (pb_dim lt n) a /\
  exists i lo hi, a_ext a = XBarrier sdg (BPos (mkPB (mkO on ty i) lt (pb_idxs lt n) lo hi)) /\
     last_dim lo = Ok n /\ last_dim hi = Ok n.
Lemma pbar_inv_step mk on ty sdg lt a a' : pbar_inv mk on ty sdg lt a -> astep a a' -> pbar_inv mk on ty sdg lt a'.
Proof.
  intros (Hd & Hm & i & lo & hi & He & Hlo & Hhi) Hs. destruct (astep_mask _ _ _ _ Hd Hm Hs) as [Hd' Hm'].
  split; [exact Hd'|]. split; [exact Hm'|]. clear Hd' Hm'.
  destruct Hs; try (rewrite He in *; discriminate); cbn; eauto 7.
  - rewrite He in H. injection H as -> <-. destruct H0 as (idx & H0 & H2). destruct Hm as [_ Hm]. rewrite Hm in H0. subst idx.
    cbn. eauto 7.
  - rewrite He in H. injection H as -> <-. destruct H0 as (idx & H0 & H2). destruct Hm as [_ Hm]. rewrite Hm in H0. subst idx.
    cbn. eauto 7.
  - destruct (forced_other _ _ H) as (_ & _ & _ & _ & _ & ->). eauto 7.
Qed.
Lemma pbar_inv_bind mk on ty sdg lt c m : pbar_inv mk on ty sdg lt (c_at c) -> pbar_inv mk on ty sdg lt (c_at (snd (update_model m c))).
Proof.
  intros (Hd & Hm & i & lo & hi & He & Hlo & Hhi).
  assert (Ho : object_of (c_at c) = Some (mkO on ty i)) by (unfold object_of; now rewrite He).
  rewrite (obj_bind m c _ Ho).
  assert (G : forall j, pbar_inv mk on ty sdg lt (set_obj_id (c_at c) j)).
  { intros k. destruct (set_obj_id_other (c_at c) k) as (_ & _ & _ & _ & h1 & h2 & h3).
    split; [now rewrite h1|]. split; [unfold mask_state in *; rewrite h2, h3; exact Hm|].
    unfold set_obj_id. rewrite He. do 3 eexists. split; [reflexivity|]. split; [exact Hlo|exact Hhi]. }
  destruct (_ =? _)%Z; cbn; [apply G|]. destruct (G (name2id m (ob_type (mkO on ty i)) (ob_name (mkO on ty i)))) as (a1 & a2 & a3).
  split; [exact a1|]. split; [exact a2|exact a3].
Qed.

(** Constructors establish the invariants. *)
Definition mk_opt (k : option marr) : option (list Z) := option_map mk_data k.
Lemma init_task_mask name cost gain gf lm mk k a : init_task name cost gain gf lm mk k = Ok a ->
  a_mask a = mk_opt mk /\ a_mask_idxs a = match mk with None => [] | Some m => argwhere (mk_data m) end /\
  a_ext a = XTask cost lm k /\ a_name a = name /\ a_gain a = gain /\ ndim gain <= 1 /\ (0 <= lm)%R /\ ndim cost <= 2 /\ a_model a = None /\
  (match mk with None => True | Some m => List.length (mk_shape m) = 1 end).
Proof.
  unfold init_task, init_component. destruct (Nat.ltb 1 (ndim gain)) eqn:Eg; [discriminate|]. apply Nat.ltb_ge in Eg.
  destruct mk as [m|]; cbn.
  - destruct (negb (Nat.eqb (List.length (mk_shape m)) 1)) eqn:Es; cbn; [discriminate|]. apply negb_false_iff, Nat.eqb_eq in Es.
    destruct (Rlt_dec lm 0); [discriminate|]. destruct (Nat.ltb 2 (ndim cost)) eqn:Ec; [discriminate|]. apply Nat.ltb_ge in Ec.
    intros H; injection H as <-. cbn. repeat split; auto. now apply Rnot_lt_le.
  - destruct (Rlt_dec lm 0); [discriminate|]. destruct (Nat.ltb 2 (ndim cost)) eqn:Ec; [discriminate|]. apply Nat.ltb_ge in Ec.
    intros H; injection H as <-. cbn. repeat split; auto. now apply Rnot_lt_le.
Qed.

Definition task_dim (dflt : nat) (mk : option marr) : nat :=
  match mk with None => dflt | Some m => List.length (argwhere (mk_data m)) end.
Lemma dim_or_eq name cost gain gf lm mk k a n : init_task name cost gain gf lm mk k = Ok a -> dim_or n mk a = task_dim n mk.
Proof.
  intros H. destruct (init_task_mask _ _ _ _ _ _ _ _ H) as (_ & H2 & _). unfold dim_or, task_dim. rewrite H2. now destruct mk.
Qed.
Lemma init_mask_state name cost gain gf lm mk k a d : init_task name cost gain gf lm mk k = Ok a -> mask_state (mk_opt mk) d a.
Proof.
  intros H. destruct (init_task_mask _ _ _ _ _ _ _ _ H) as (H1 & H2 & _). unfold mask_state. rewrite H1, H2.
  destruct mk; cbn; auto.
Qed.

Lemma com_inv_new name cost gain gf lm mk c : new_com_task name cost gain gf lm mk = Ok c ->
  com_inv (mk_opt mk) (task_dim 3 mk) (c_at c).
Proof.
  unfold new_com_task. destruct (match mk with None => _ | _ => _ end); cbn; [|discriminate].
  destruct (init_task name cost gain gf lm mk (TCom (tvec []))) as [a'|] eqn:E; cbn; [|discriminate].
  intros H; injection H as <-. cbn. rewrite (dim_or_eq _ _ _ _ _ _ _ _ _ E).
  split; [reflexivity|]. split; [exact (init_mask_state _ _ _ _ _ _ _ _ (task_dim 3 mk) E)|].
  cbn. do 3 eexists. split; [reflexivity|]. rewrite last_dim_tvec, vzero_length. reflexivity.
Qed.
Lemma pos_inv_new name cost gain on ty gf lm mk c : new_position_task name cost gain on ty gf lm mk = Ok c ->
  pos_inv (mk_opt mk) (task_dim 3 mk) on ty (c_at c).
Proof.
  unfold new_position_task.
  destruct (init_task name cost gain gf lm mk (TPos (mkO on ty (-1)) (tvec []))) as [a'|] eqn:E; cbn; [|discriminate].
  intros H; injection H as <-. cbn. rewrite (dim_or_eq _ _ _ _ _ _ _ _ _ E).
  split; [reflexivity|]. split; [exact (init_mask_state _ _ _ _ _ _ _ _ (task_dim 3 mk) E)|].
  cbn. do 4 eexists. split; [reflexivity|]. rewrite last_dim_tvec, vzero_length. reflexivity.
Qed.
Lemma frame_inv_new name cost gain on ty gf lm mk c : new_frame_task name cost gain on ty gf lm mk = Ok c ->
  frame_inv (mk_opt mk) (task_dim 6 mk) on ty (c_at c).
Proof.
  unfold new_frame_task.
  destruct (init_task name cost gain gf lm mk _) as [a'|] eqn:E; cbn; [|discriminate].
  intros H; injection H as <-. cbn. rewrite (dim_or_eq _ _ _ _ _ _ _ _ _ E).
  split; [reflexivity|]. split; [exact (init_mask_state _ _ _ _ _ _ _ _ (task_dim 6 mk) E)|].
  cbn. destruct (init_task_mask _ _ _ _ _ _ _ _ E) as (_ & _ & -> & _). eauto 7.
Qed.

Lemma pb_fold (P : attrs -> Prop) c m c' :
  (forall c, P (c_at c) -> P (c_at (snd (m c)))) -> P (c_at c) -> run_init c m = Ok c' -> P (c_at c').
Proof.
  intros Hm Hp. unfold run_init. specialize (Hm c Hp). destruct (m c) as [[u|e] c2]; intros H; [|discriminate].
  injection H as <-. exact Hm.
Qed.
Lemma asteps_inv (P : attrs -> Prop) a a' : (forall a a', P a -> astep a a' -> P a') -> asteps a a' -> P a -> P a'.
Proof. intros Hs H. induction H as [x y H|x|x y z _ IH1 _ IH2]; eauto. Qed.

Lemma pbar_inv_new name gain on ty lo hi lts gf sdg mk c :
  new_position_barrier name gain on ty lo hi lts gf sdg mk = Ok c ->
  exists lt, from_str lts = Ok lt /\
  pbar_inv (match mk with Some k => mk_data k | None => [1%Z; 1%Z; 1%Z] end) on ty sdg lt (c_at c).
Proof.
  unfold new_position_barrier, init_barrier, init_component.
  set (k := match mk with Some k => k | None => mvec [1%Z; 1%Z; 1%Z] end).
  assert (Hk : match mk with Some k => mk_data k | None => [1%Z; 1%Z; 1%Z] end = mk_data k) by (destruct mk; reflexivity).
  rewrite Hk. clear Hk.
  destruct (Nat.ltb 1 (ndim gain)); cbn; [discriminate|].
  destruct (negb (Nat.eqb (List.length (mk_shape k)) 1)); cbn; [discriminate|].
  destruct (negb _); [discriminate|].
  destruct (from_str lts) as [lt|]; cbn; [|discriminate]. intros H. exists lt. split; [reflexivity|].
  set (n := List.length (argwhere (mk_data k))) in *.
  set (st := fun x y => mkA name None gain (match gf with Some f => f | None => fun x => x end) (Z.of_nat (pb_dim lt n))
     (Some (mk_data k)) (argwhere (mk_data k)) (XBarrier sdg (BPos (mkPB (mkO on ty (-1)) lt (pb_idxs lt n) x y)))).
  set (P := pbar_inv (mk_data k) on ty sdg lt).
  assert (P0 : P (st (tvec (vzero n)) (tvec (vzero n)))).
  { unfold P, pbar_inv, st. fold n. split; [reflexivity|]. split; [now split|]. cbn. do 3 eexists. split; [reflexivity|].
    rewrite last_dim_tvec, vzero_length. now split. }
  assert (H' : (do c1 <- match lo with None => Ok (new_comp (st (tvec (vzero n)) (tvec (vzero n)))) | Some x => run_init (new_comp (st (tvec (vzero n)) (tvec (vzero n)))) (update_p_min x) end;
    match hi with None => Ok c1 | Some x => run_init c1 (update_p_max x) end) = Ok c).
  { rewrite <- H. unfold st. destruct lt; cbn [pb_dim pb_idxs]; try reflexivity.
    replace (Z.of_nat (2 * n)) with (2 * Z.of_nat n)%Z by lia. reflexivity. }
  clear H. destruct (match lo with None => _ | Some _ => _ end) as [c1|] eqn:E1; cbn in H'; [|discriminate].
  assert (P1 : P (c_at c1)).
  { destruct lo as [x|]; [|injection E1 as <-; exact P0].
    refine (pb_fold P (new_comp (st (tvec (vzero n)) (tvec (vzero n)))) _ _ _ P0 E1). intros c2 H2. eapply asteps_inv; [|apply pmin_steps|exact H2].
    intros; eapply pbar_inv_step; eauto. }
  destruct hi as [x|]; [|injection H' as <-; exact P1].
  refine (pb_fold P c1 _ _ _ P1 H'). intros c2 H2. eapply asteps_inv; [|apply pmax_steps|exact H2].
  intros; eapply pbar_inv_step; eauto.
Qed.
