(** Values of compiled components: the statements used in PropsValue. *)
From Verif Require Import Base Lin LinFacts Mjx Typing Component SpecComponent SpecJoint SpecHistory Rot Conf FrameJac Collide JaxComponents Witness.
From Verif Require Import SpecCollision SpecTree SpecShape SpecContact SpecSelf SpecConf SpecValue.
From Verif Require Import ComponentFacts ComponentFacts2 ApiSteps BindFacts BindFacts2 BindFacts3 CompThms BindThms2 MotionFacts2 ConfFacts ConfCases FrameFacts RotFacts ValueFacts ValueFacts2 ValueFacts3 ValueFacts4 ValueCases.
Open Scope R_scope.

Lemma coords_same n mk x y : mask_within n mk -> same_selected n mk x y -> coords (axes n mk) x = coords (axes n mk) y.
Proof.
  intros Hw H. apply map_ext_in. intros a Ha. apply H; [exact Ha|]. pose proof (axes_within n mk Hw) as F. rewrite Forall_forall in F. now apply F.
Qed.
Lemma coords_eq as_ x t : List.length t = List.length as_ -> (coords as_ x = t <-> forall k, (k < List.length as_)%nat -> nth (nth k as_ 0%nat) x 0 = nth k t 0).
Proof.
  intros Ht. unfold coords. set (F := fun a => nth a x 0). split.
  - intros <- k Hk. rewrite (nth_indep (map F as_) 0 (F 0%nat)) by (rewrite map_length; exact Hk). now rewrite map_nth.
  - intros H. apply (nth_ext _ _ 0 0); [rewrite map_length; congruence|]. intros k Hk. rewrite map_length in Hk.
    rewrite (nth_indep (map F as_) 0 (F 0%nat)) by (rewrite map_length; exact Hk). rewrite map_nth. now apply H.
Qed.
Lemma unique_object m ty s i k : sound_model m -> has_object m ty s (Z.of_nat i) -> has_object m ty s (Z.of_nat k) -> i = k.
Proof. intros (_ & _ & _ & (_ & U) & _) A B. pose proof (U _ _ _ _ A B). lia. Qed.

(** *** C28 *)
Lemma position_error L mk on ty j t d : position_task mk on ty j -> has_pose ty -> mask_within 3 mk -> target_is j t -> wf_data (j_model j) d ->
  exists i e, has_object (j_model j) ty on (Z.of_nat i) /\ List.length t = List.length (axes 3 mk) /\
    call L j d = Ok e /\ e = vsub (coords (axes 3 mk) (position d ty i)) t /\
    (e = vzero (List.length e) <-> forall k, (k < List.length (axes 3 mk))%nat -> nth (nth k (axes 3 mk) 0%nat) (position d ty i) 0 = nth k t 0) /\
    (forall d', wf_data (j_model j) d' -> same_selected 3 mk (position d ty i) (position d' ty i) -> call L j d' = Ok e).
Proof.
  intros Hj Hp Hmk Ht Hd. destruct (position_task_value L _ _ _ _ _ _ Hj Hp Ht Hd Hmk) as (i & Hi & Lt & _ & E). exists i. eexists. split; [exact Hi|]. split; [exact Lt|]. split; [exact E|]. split; [reflexivity|].
  assert (Lc : List.length (coords (axes 3 mk) (position d ty i)) = List.length t) by (rewrite coords_length; congruence). split.
  - rewrite vsub_length by exact Lc. rewrite ?Lc, <- ?Lc. rewrite vsub_zero by exact Lc. now apply coords_eq.
  - intros d' Hd' Hs. destruct (position_task_value L _ _ _ _ _ _ Hj Hp Ht Hd' Hmk) as (i' & Hi' & _ & _ & E'). rewrite E'.
    pose proof (position_task_facts _ _ _ _ Hj) as (S & _). rewrite (unique_object _ _ _ _ _ S Hi' Hi). f_equal. f_equal. symmetry. now apply coords_same.
Qed.
Lemma com_error L mk j t d : com_task mk j -> wf_mask mk -> target_is j t -> wf_data (j_model j) d ->
  exists e, List.length t = List.length (axes 3 mk) /\
    call L j d = Ok e /\ e = vsub (coords (axes 3 mk) (robot_com d)) t /\
    (e = vzero (List.length e) <-> forall k, (k < List.length (axes 3 mk))%nat -> nth (nth k (axes 3 mk) 0%nat) (robot_com d) 0 = nth k t 0) /\
    (forall d', wf_data (j_model j) d' -> same_selected 3 mk (robot_com d) (robot_com d') -> call L j d' = Ok e).
Proof.
  intros Hj Hw Ht Hd. destruct (com_task_value L _ _ _ _ Hj Hw Ht Hd) as (Lt & _ & E). eexists. split; [exact Lt|]. split; [exact E|]. split; [reflexivity|].
  assert (Lc : List.length (coords (axes 3 mk) (robot_com d)) = List.length t) by (rewrite coords_length; congruence). split.
  - rewrite vsub_length by exact Lc. rewrite ?Lc, <- ?Lc. rewrite vsub_zero by exact Lc. now apply coords_eq.
  - intros d' Hd' Hs. destruct (com_task_value L _ _ _ _ Hj Hw Ht Hd') as (_ & _ & E'). rewrite E'. f_equal. f_equal. symmetry. apply coords_same; [|exact Hs].
    destruct Hj as (name & cost & gain & gf & lm & c & Hn & _). exact (com_task_within _ _ _ _ _ _ _ Hn Hw).
Qed.
Lemma target_setters c0 os mk t : Forall api_op os ->
  ((exists name cost gain gf lm, new_com_task name cost gain gf lm mk = Ok c0) ->
   let c := history os c0 in
   (last_dim t = Ok (List.length (axes 3 mk)) -> fst (update_target_com t c) = Ok tt /\ held_target (snd (update_target_com t c)) t) /\
   (ndim t <> 0%nat -> last_dim t <> Ok (List.length (axes 3 mk)) -> update_target_com t c = (Err ValueError, c))) /\
  ((exists name cost gain on ty gf lm, new_position_task name cost gain on ty gf lm mk = Ok c0) ->
   let c := history os c0 in
   (last_dim t = Ok (List.length (axes 3 mk)) -> fst (update_target_pos t c) = Ok tt /\ held_target (snd (update_target_pos t c)) t) /\
   (ndim t <> 0%nat -> last_dim t <> Ok (List.length (axes 3 mk)) -> update_target_pos t c = (Err ValueError, c))).
Proof.
  intros Ho. split.
  - intros (name & cost & gain & gf & lm & Hn). cbv zeta.
    assert (I : com_inv (mk_opt mk) (task_dim 3 mk) (c_at (history os c0))).
    { eapply api_history; [exact Ho|exact (com_inv_new _ _ _ _ _ _ _ Hn)|intros; eapply com_inv_step; eauto|intros; now apply com_inv_bind]. }
    destruct I as (D & _ & co & l & t0 & He & _). rewrite task_dim_axes in D. destruct (set_target_com t _ _ _ _ He) as [A B]. split.
    + intros Hl. rewrite (A _ Hl (eq_sym D)). split; [reflexivity|]. left. do 2 eexists. reflexivity.
    + intros Hd Hl. destruct B as [B1 B2]; [intros k Hk Hz; apply Hl; rewrite Hk; f_equal; lia|]. rewrite (surjective_pairing (update_target_com t _)), B1, B2. destruct (Nat.eqb_spec (ndim t) 0); [contradiction|reflexivity].
  - intros (name & cost & gain & on & ty & gf & lm & Hn). cbv zeta.
    assert (I : pos_inv (mk_opt mk) (task_dim 3 mk) on ty (c_at (history os c0))).
    { eapply api_history; [exact Ho|exact (pos_inv_new _ _ _ _ _ _ _ _ _ Hn)|intros; eapply pos_inv_step; eauto|intros; now apply pos_inv_bind]. }
    destruct I as (D & _ & co & l & t0 & i & He & _). rewrite task_dim_axes in D. destruct (set_target_pos t _ _ _ _ _ He) as [A B]. split.
    + intros Hl. rewrite (A _ Hl (eq_sym D)). split; [reflexivity|]. right. do 3 eexists. reflexivity.
    + intros Hd Hl. destruct B as [B1 B2]; [intros k Hk Hz; apply Hl; rewrite Hk; f_equal; lia|]. rewrite (surjective_pairing (update_target_pos t _)), B1, B2. destruct (Nat.eqb_spec (ndim t) 0); [contradiction|reflexivity].
Qed.

(** *** C29 *)
Lemma position_barrier_semantics L mk on ty lts j lo hi d : position_barrier mk on ty lts j -> has_pose ty -> mask_within 3 mk -> p_limits_are lts j lo hi -> wf_data (j_model j) d ->
  exists i h, has_object (j_model j) ty on (Z.of_nat i) /\ call L j d = Ok h /\ (lts = "min" \/ lts = "max" \/ lts = "both")%string /\
    j_dim j = Z.of_nat (List.length h) /\ List.length h = barrier_size lts (List.length (axes 3 mk)) /\
    (vnonneg h <-> inside lts lo hi (coords (axes 3 mk) (position d ty i))).
Proof.
  intros Hj Hp Hmk Hl Hd. destruct (position_barrier_value L _ _ _ _ _ _ _ _ Hj Hp Hl Hd Hmk) as (i & h & Hi & E & Lh & D & V & _). exists i, h.
  split; [exact Hi|]. split; [exact E|]. split; [|split; [congruence|auto]].
  destruct (position_barrier_facts _ _ _ _ _ Hj) as (_ & _ & _ & _ & lt & _ & _ & _ & _ & -> & _). destruct lt; cbn; auto.
Qed.

(** *** C25 *)
Lemma short_mask_reads on ty j mk : mask_within 3 mk -> has_pose ty -> position_task mk on ty j \/ (exists lt, position_barrier mk on ty lt j) ->
  exists i, has_object (j_model j) ty on (Z.of_nat i) /\ forall L d d', wf_data (j_model j) d -> wf_data (j_model j) d' ->
  same_selected 3 mk (position d ty i) (position d' ty i) -> call L j d = call L j d'.
Proof.
  intros Hmk Hp [H|[lt H]].
  - destruct (position_task_facts _ _ _ _ H) as (S & _ & M & _ & W & lm & t & i & E & Hi & _). destruct (named_object _ _ _ _ S Hp Hi) as (k & -> & Hk). exists k. split; [exact Hi|].
    intros L d d' Hd Hd' Hs. unfold call. rewrite E. unfold call_pos. destruct (get_pos_spec _ _ _ _ Hd Hp Hk) as [-> L1]. destruct (get_pos_spec _ _ _ _ Hd' Hp Hk) as [-> L2]. cbn [bind]. rewrite M.
    rewrite (gather_coords _ _ 3 L1 (axes_within 3 mk Hmk)), (gather_coords _ _ 3 L2 (axes_within 3 mk Hmk)). now rewrite (coords_same 3 mk _ _ Hmk Hs).
  - destruct (position_barrier_facts _ _ _ _ _ H) as (S & M & _ & _ & lt' & sdg & lo & hi & i & _ & _ & E & Hi & _). destruct (named_object _ _ _ _ S Hp Hi) as (k & -> & Hk). exists k. split; [exact Hi|].
    intros L d d' Hd Hd' Hs. unfold call. rewrite E. unfold call_pbar. destruct (get_pos_spec _ _ _ _ Hd Hp Hk) as [-> L1]. destruct (get_pos_spec _ _ _ _ Hd' Hp Hk) as [-> L2]. cbn [bind]. rewrite M.
    rewrite (gather_coords _ _ 3 L1 (axes_within 3 mk Hmk)), (gather_coords _ _ 3 L2 (axes_within 3 mk Hmk)). now rewrite (coords_same 3 mk _ _ Hmk Hs).
Qed.
Lemma com_mask_rejected name cost gain gf lm k : wf_mask (Some k) -> List.length (mk_data k) <> 3%nat -> forall c, new_com_task name cost gain gf lm (Some k) <> Ok c.
Proof.
  intros Hw Hl c Hn. unfold new_com_task in Hn. destruct (mk_shape k) as [|n s] eqn:E; [discriminate|]. destruct (Nat.eqb_spec n 3); [|discriminate]. cbn [bind] in Hn.
  destruct (init_task name cost gain gf lm (Some k) _) as [a|] eqn:Ei; [|discriminate]. destruct (init_task_mask _ _ _ _ _ _ _ _ Ei) as (_ & _ & _ & _ & _ & _ & _ & _ & _ & Hs).
  unfold wf_mask in Hw. rewrite E in *. destruct s; [|cbn in Hs; discriminate]. cbn in Hw. lia.
Qed.
Definition lifted : mjdata := posed arm2 [0; 0; 1] id9.
Definition grounded : mjdata := posed arm2 [0; 0; 0] id9.
Lemma long_mask_position L : exists mk j d d', position_task mk "tip" OBody j /\ wf_mask mk /\ has_object (j_model j) OBody "tip" 2 /\ wf_data (j_model j) d /\ wf_data (j_model j) d' /\
  same_selected 3 mk (position d OBody 2) (position d' OBody 2) /\ call L j d <> call L j d'.
Proof.
  exists (Some (mvec long5)), (pos_on (Some long5) [0; 0]), grounded, lifted. destruct pos_long_ok as [A ->]. split; [exact A|]. split; [reflexivity|]. split; [right; now left|].
  split; [now apply posed_data|]. split; [now apply posed_data|]. split.
  - intros a Ha Hl. vm_compute in Ha. destruct Ha as [<-|[<-|[]]]; lia.
  - change (call_pos [3; 4]%Z 2 OBody (tvec [0; 0]) grounded <> call_pos [3; 4]%Z 2 OBody (tvec [0; 0]) lifted). cbn. intros H. injection H as H. lra.
Qed.
Lemma long_mask_barrier L : exists mk j d d', position_barrier mk "tip" OBody "min" j /\ wf_mask mk /\ has_object (j_model j) OBody "tip" 2 /\ wf_data (j_model j) d /\ wf_data (j_model j) d' /\
  same_selected 3 mk (position d OBody 2) (position d' OBody 2) /\ call L j d <> call L j d'.
Proof.
  exists (Some (mvec long5)), (wall_on "min" None None (Some (mvec long5))), grounded, lifted. destruct wall_long_ok as [A ->]. split; [exact A|]. split; [reflexivity|]. split; [right; now left|].
  split; [now apply posed_data|]. split; [now apply posed_data|]. split.
  - intros a Ha Hl. vm_compute in Ha. destruct Ha as [<-|[<-|[]]]; lia.
  - change (call_pbar [3; 4]%Z 2 OBody (tvec [0; 0]) (tvec [0; 0]) [0; 1]%Z grounded <> call_pbar [3; 4]%Z 2 OBody (tvec [0; 0]) (tvec [0; 0]) [0; 1]%Z lifted). cbn. intros H. injection H as H. lra.
Qed.
