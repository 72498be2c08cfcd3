(** What each attribute shows after any uses, and when it can be read. *)
From Verif Require Import Base Lin LinFacts Mjx Typing Component SpecComponent ComponentFacts ComponentFacts2 BindFacts2 SpecHistory SpecSettings SettingFacts SettingThms Read SpecRead ReadFacts ReadFacts2 ReadFacts3 ReadFacts4.
Open Scope nat_scope.
#[local] Arguments Nat.ltb : simpl never.
#[local] Arguments Nat.eqb : simpl never.
#[local] Arguments Z.eqb : simpl never.
#[local] Arguments name2id : simpl never.
#[local] Arguments force_mask : simpl never.

Lemma shows_calls c us x : constructed c -> Forall public us -> x <> AModified -> x <> AMask ->
  shows (uses us c) x = shows (history (calls us) c) x.
Proof.
  intros Hc HF H1 H2. rewrite <- uses_do. apply looking_changes_nothing; auto.
Qed.

(** ** The settings *)
Lemma gain_shown c us g : constructed c -> Forall public us -> shows c AGain = Ok (VArray g) ->
  shows (uses us c) AGain = Ok (VArray (last_accepted asks_gain (calls us) c g)).
Proof.
  intros Hc HF H. rewrite shows_calls by (auto; discriminate). cbn in H. injection H as <-.
  change (shows (history (calls us) c) AGain) with (Ok (VArray (gain_of (history (calls us) c)))).
  rewrite gain_register; [reflexivity|now apply calls_api].
Qed.
Lemma cost_shown c us w : constructed c -> Forall public us -> shows c ACost = Ok (VArray w) ->
  exists w', last_accepted asks_cost (calls us) c (Some w) = Some w' /\ shows (uses us c) ACost = Ok (VArray w').
Proof.
  intros Hc HF H. rewrite shows_calls by (auto; discriminate).
  pose proof (cost_register c (calls us) (calls_api us HF)) as R.
  pose proof (fixed_settings c (calls us) (calls_api us HF)) as (_ & _ & K & _).
  unfold shows in *. cbn in *. unfold cost_of, class_of in *.
  destruct (a_ext (c_at c)) as [w0 ? ?| |]; try discriminate H. injection H as ->. rewrite <- R.
  destruct (a_ext (c_at (history (calls us) c))) as [w1 ? ?|? []|? ? ? []]; try (destruct k; discriminate K). eauto.
Qed.
Lemma target_shows c x : target_name (class_of c) = Some x -> shows c x = match target_of c with Some t => Ok (VArray t) | None => Err ValueError end.
Proof.
  unfold target_name, class_of, target_of, shows. destruct (a_ext (c_at c)) as [? ? []|? []|? ? ? []] eqn:E; try discriminate; intros H; injection H as <-; cbn; rewrite E; try reflexivity.
  now destruct (jt_target j).
Qed.
Lemma target_shown c us x t : constructed c -> Forall public us -> Forall no_array_frame (calls us) -> target_name (class_of c) = Some x ->
  shows c x = Ok (VArray t) ->
  exists t', last_accepted asks_target (calls us) c (Some t) = Some t' /\ shows (uses us c) x = Ok (VArray t').
Proof.
  intros Hc HF Hn Hx H. assert (x <> AModified /\ x <> AMask) as [X1 X2] by (split; intros ->; destruct (class_of c); discriminate Hx).
  rewrite shows_calls by auto. pose proof (fixed_settings c (calls us) (calls_api us HF)) as (_ & _ & K & _).
  rewrite target_shows in H by exact Hx. rewrite target_shows by (now rewrite K).
  destruct (target_of c) as [t0|] eqn:T; [|discriminate H]. injection H as ->.
  rewrite <- T, <- (target_register c (calls us) (calls_api us HF) Hn) by congruence.
  pose proof (calls_api us HF) as Ha.
  assert (P : target_of (history (calls us) c) <> None).
  { assert (T' : target_of c <> None) by congruence. clear - Ha Hn T'. revert c T'.
    induction (calls us) as [|o os IH]; intros c T; [exact T|]. apply Forall_cons_iff in Ha, Hn. destruct Ha, Hn. cbn. apply IH; auto. now apply target_inv. }
  destruct (target_of (history (calls us) c)); [eauto|congruence].
Qed.

(** ** The model *)
Lemma km_force : keeps a_model force_mask.
Proof.
  unfold force_mask. apply k_bind; [apply k_read|]. intros [l|]; [apply k_ret|]. apply k_bind; [apply k_read|]. intros d. destruct (d =? -1)%Z; [apply k_raise|].
  apply k_bind; [apply k_read|]. intros p. apply k_seq; apply k_seta; reflexivity.
Qed.
Ltac km := repeat first [apply k_ret|apply k_raise|apply k_read|apply k_lift|apply km_force|apply k_seta; reflexivity|apply k_seq|apply k_bind|progress intros
  |match goal with |- keeps _ (match ?x with _ => _ end) => destruct x end].
Lemma km_call o : is_call o -> is_bind o = false -> keeps a_model (run_cop o).
Proof.
  destruct o; cbn; intros H1 H2; try destruct H1; try discriminate H2;
  unfold update_gain, update_cost, update_target_com, update_target_pos, update_target_frame, update_target_q, update_p_min, update_p_max, update_q_min, update_q_max, mask_idxs; km.
Qed.
Lemma km_tq t : keeps a_model (update_target_q t). Proof. unfold update_target_q. km. Qed.
Lemma km_qn t : keeps a_model (update_q_min t). Proof. unfold update_q_min. km. Qed.
Lemma km_qx t : keeps a_model (update_q_max t). Proof. unfold update_q_max. km. Qed.
Definition binds {A} (m : mjmodel) (x : M A) : Prop := forall c, a_model (c_at (snd (x c))) = Some m.
Lemma b_bind A B m (x : M A) (f : A -> M B) : binds m x -> (forall a, keeps a_model (f a)) -> binds m (mbind x f).
Proof. intros H F c. unfold mbind. specialize (H c). destruct (x c) as [[a|e] c']; cbn in *; [now rewrite (F a c')|exact H]. Qed.
Lemma b_seq A B m (x : M A) (y : M B) : binds m x -> keeps a_model y -> binds m (mseq x y). Proof. intros; now apply b_bind. Qed.
Lemma km_upd f : keeps a_model (seta (upd_self f)).
Proof. apply k_seta. intros a. unfold upd_self. destruct (a_ext a) as [|? []|]; reflexivity. Qed.
Lemma km_jt q : keeps a_model (seta (fun a => set_jt_qidx a q)).
Proof. apply k_seta. intros a. unfold set_jt_qidx. destruct (a_ext a) as [? ? []| |]; reflexivity. Qed.
Lemma km_jb q : keeps a_model (seta (fun a => set_jb_qidx a q)).
Proof. apply k_seta. intros a. unfold set_jb_qidx. destruct (a_ext a) as [|? []|]; reflexivity. Qed.
Lemma b_joint m f : binds m (bind_joint_masks m f).
Proof. unfold bind_joint_masks. apply b_seq; [intro; reflexivity|]. km. Qed.
Ltac kmm := repeat first [apply km_upd|apply km_jt|apply km_jb|apply km_tq|apply km_qn|apply km_qx|apply k_ret|apply k_raise|apply k_read|apply k_lift|apply km_force|apply k_seta; reflexivity|apply k_seq|apply k_bind|progress intros
  |match goal with |- keeps _ (match ?x with _ => _ end) => destruct x end].
#[local] Arguments update_model_obj : simpl never.
#[local] Arguments update_model_joint_task : simpl never.
#[local] Arguments update_model_joint_barrier : simpl never.
#[local] Arguments update_model_self : simpl never.
#[local] Arguments update_model_equality : simpl never.
Lemma model_free m c : object_class (class_of c) = None -> a_model (c_at (after (OpModel m) c)) = Some m.
Proof.
  unfold after. cbn [run_cop]. unfold update_model. unfold mbind at 1. unfold read at 1. unfold class_of.
  destruct (a_ext (c_at c)) as [? ? []|? []|? ? ? []]; cbn; intros H; try discriminate H; try reflexivity; clear H; revert c;
  match goal with |- forall c, a_model (c_at (snd (?x c))) = Some ?m => change (binds m x) end;
  unfold update_model_joint_task, update_model_joint_barrier, update_model_self, update_model_equality.
  all: first [apply b_bind; [apply b_joint|intros; kmm]|apply b_seq; [intro; reflexivity|kmm]].
Qed.
Lemma obj_bind m o c : a_model (c_at (snd (update_model_obj m o c))) = if is_ok (fst (update_model_obj m o c)) then Some m else a_model (c_at c).
Proof.
  unfold update_model_obj, mseq, mbind, seta, raise. cbn. destruct (_ =? _)%Z; cbn; [|reflexivity].
  unfold set_obj_id. destruct (a_ext (c_at c)) as [? ? []|? []|? ? ? []]; reflexivity.
Qed.
Lemma returned_ok o c : returned o c = is_ok (fst (run_cop o c)). Proof. unfold returned. now destruct (fst (run_cop o c)). Qed.
Lemma model_object m c : object_class (class_of c) <> None ->
  a_model (c_at (after (OpModel m) c)) = if returned (OpModel m) c then Some m else a_model (c_at c).
Proof.
  rewrite returned_ok. unfold after. cbn [run_cop]. unfold update_model. unfold mbind at 1 2. unfold read at 1 2. unfold class_of.
  destruct (a_ext (c_at c)) as [? ? []|? []|? ? ? []]; cbn; intros H; try congruence; apply obj_bind.
Qed.
Lemma constructed_unbound c : constructed c -> a_model (c_at c) = None.
Proof.
  assert (IC : forall name gain gf mk e a, init_component name gain gf mk e = Ok a -> a_model a = None).
  { intros name gain gf mk e a. unfold init_component. destruct (Nat.ltb _ _); [discriminate|]. destruct mk as [k|]; [destruct (negb _); [discriminate|]|]; intros H; injection H as <-; reflexivity. }
  assert (IT : forall name cost gain gf lm mk k a, init_task name cost gain gf lm mk k = Ok a -> a_model a = None).
  { intros name cost gain gf lm mk k a. unfold init_task. destruct (init_component _ _ _ _ _) as [a'|] eqn:E; cbn; [|discriminate].
    destruct (Rlt_dec _ _); [discriminate|]. destruct (Nat.ltb _ _); [discriminate|]. intros H. injection H as <-. eauto. }
  intros H. destruct H as [? ? ? ? ? ? c H|? ? ? ? ? ? ? ? c H|? ? ? ? ? ? ? ? c H|? ? ? ? ? ? c H|? ? ? ? ? ? ? ? c H|? ? ? ? lo hi lt ? ? mk c H|? ? ? ? ? ? ? c H|? ? ? ? ? ? ? ? c H|? ? ? ? ? ? ? c H|? ? ? ? c H|? ? ? ? ? ? ? c H].
  - unfold new_com_task in H. match type of H with bind ?x _ = _ => destruct x as [[]|]; cbn [bind] in H; [|discriminate] end.
    destruct (init_task _ _ _ _ _ _ _) as [a|] eqn:E; cbn in H; [|discriminate]. injection H as <-. cbn. eauto.
  - unfold new_position_task in H. destruct (init_task _ _ _ _ _ _ _) as [a|] eqn:E; cbn in H; [|discriminate]. injection H as <-. cbn. eauto.
  - unfold new_frame_task in H. destruct (init_task _ _ _ _ _ _ _) as [a|] eqn:E; cbn in H; [|discriminate]. injection H as <-. cbn. eauto.
  - unfold new_joint_task in H. destruct (init_task _ _ _ _ _ _ _) as [a|] eqn:E; cbn in H; [|discriminate]. injection H as <-. cbn. eauto.
  - unfold new_custom_task in H. destruct (init_task _ _ _ _ _ _ _) as [a|] eqn:E; cbn in H; [|discriminate]. injection H as <-. cbn. eauto.
  - unfold new_position_barrier in H.
    destruct (init_barrier _ _ _ _ _ _) as [a|] eqn:E; cbn in H; [|discriminate]. unfold init_barrier in E. apply IC in E.
    destruct (negb _); [discriminate|]. destruct (from_str lt) as [l|]; cbn in H; [|discriminate].
    match type of H with (let (_, _) := ?x in _) = _ => destruct x as [idxs d] end.
    match type of H with context [new_comp ?x] => set (a1 := x) in H end.
    assert (I2 : forall c1, (match lo with None => Ok (new_comp a1) | Some x => run_init (new_comp a1) (update_p_min x) end) = Ok c1 -> a_model (c_at c1) = None).
    { intros c1. destruct lo as [x|]; [|intros X; now injection X as <-]. unfold run_init.
      pose proof (km_call (OpPMin x) I eq_refl (new_comp a1)) as K. cbn [run_cop] in K.
      destruct (update_p_min x (new_comp a1)) as [[]]; [|discriminate]. intros X. injection X as <-. cbn [snd] in K. rewrite K. exact E. }
    match type of H with bind ?x _ = _ => destruct x as [c1|]; cbn [bind] in H; [|discriminate] end. specialize (I2 c1 eq_refl).
    destruct hi as [x|]; [|now injection H as <-]. unfold run_init in H.
    pose proof (km_call (OpPMax x) I eq_refl c1) as K. cbn [run_cop] in K.
    destruct (update_p_max x c1) as [[]]; [|discriminate]. injection H as <-. cbn [snd] in K. now rewrite K.
  - unfold new_joint_barrier in H. destruct (init_barrier _ _ _ _ _ _) as [a|] eqn:E; cbn in H; [|discriminate]. injection H as <-. cbn. unfold init_barrier in E. eauto.
  - unfold new_self_collision in H. destruct (init_barrier _ _ _ _ _ _) as [a|] eqn:E; cbn in H; [|discriminate]. injection H as <-. cbn. unfold init_barrier in E. eauto.
  - unfold new_custom_barrier in H. destruct (init_barrier _ _ _ _ _ _) as [a|] eqn:E; cbn in H; [|discriminate]. injection H as <-. cbn. unfold init_barrier in E. eauto.
  - unfold new_model_equality in H. destruct (init_component _ _ _ _ _) as [a|] eqn:E; cbn in H; [|discriminate]. injection H as <-. cbn. eauto.
  - unfold new_custom_constraint in H. destruct (init_component _ _ _ _ _) as [a|] eqn:E; cbn in H; [|discriminate]. injection H as <-. cbn. eauto.
Qed.
Lemma model_history_free os : forall c, Forall is_call os -> object_class (class_of c) = None ->
  a_model (c_at (history os c)) = last_model os (a_model (c_at c)).
Proof.
  induction os as [|o os IH]; intros c H K; [reflexivity|]. apply Forall_cons_iff in H. destruct H as [Ho H]. cbn [history fold_left].
  change (fold_left _ os (after o c)) with (history os (after o c)).
  rewrite IH; [|exact H|assert (Ha : api_op o) by (now destruct o); rewrite (class_step o c Ha : class_of (after o c) = class_of c); exact K].
  destruct (is_bind o) eqn:B; [destruct o; try discriminate B; cbn [last_model]; now rewrite model_free|].
  unfold after. rewrite (km_call o Ho B c). destruct o; try discriminate B; reflexivity.
Qed.
Lemma model_history_object os : forall c, Forall is_call os -> object_class (class_of c) <> None ->
  a_model (c_at (history os c)) = last_accepted asks_model os c (a_model (c_at c)).
Proof.
  induction os as [|o os IH]; intros c H K; [reflexivity|]. apply Forall_cons_iff in H. destruct H as [Ho H]. cbn [history fold_left last_accepted].
  change (fold_left _ os (after o c)) with (history os (after o c)).
  rewrite IH; [|exact H|assert (Ha : api_op o) by (now destruct o); rewrite (class_step o c Ha : class_of (after o c) = class_of c); exact K]. f_equal.
  destruct (is_bind o) eqn:B; [destruct o; try discriminate B; cbn [asks_model]; now apply model_object|].
  unfold after. rewrite (km_call o Ho B c). destruct o; try discriminate B; reflexivity.
Qed.
Lemma calls_are us : Forall public us -> Forall is_call (calls us).
Proof. induction us as [|[o|x] us IH]; intros H; [constructor|..]; apply Forall_cons_iff in H; destruct H; cbn; auto. Qed.
Lemma model_shown c us : constructed c -> Forall public us ->
  shows (uses us c) AModel = Ok (VModel (match object_class (class_of c) with None => last_model (calls us) None | Some _ => last_accepted asks_model (calls us) c None end)).
Proof.
  intros Hc HF. rewrite shows_calls by (auto; discriminate). unfold shows, get, read. cbn. do 2 f_equal.
  destruct (object_class (class_of c)) eqn:K; [rewrite model_history_object|rewrite model_history_free]; rewrite ?constructed_unbound by exact Hc; auto using calls_are. congruence.
Qed.

(** ** The object id *)
Definition v_id (a : attrs) : option Z := match get_obj a with Ok o => Some (ob_id o) | Err _ => None end.
Lemma l_id : light v_id. Proof. intros a a' _ _ _ E. unfold v_id, get_obj. now rewrite E. Qed.
Ltac ids := let c := fresh "c" in set_case c; unfold v_id, get_obj; repeat match goal with H : a_ext _ = _ |- _ => rewrite H end; cbn; try reflexivity; try congruence.
Lemma id_call o c : is_call o -> is_bind o = false -> v_id (c_at (after o c)) = v_id (c_at c).
Proof.
  unfold after. destruct o; cbn; intros H1 H2; try destruct H1; try discriminate H2.
  all: try (apply k_pmin; [apply l_id|intros ? ? ? ? E; unfold v_id, get_obj; rewrite E; reflexivity]).
  all: try (apply k_pmax; [apply l_id|intros ? ? ? ? E; unfold v_id, get_obj; rewrite E; reflexivity]).
  all: revert c; ids.
Qed.
Lemma id_bind m c n ty : object_class (class_of c) = Some (n, ty) -> v_id (c_at (after (OpModel m) c)) = Some (name2id m ty n).
Proof.
  unfold after. cbn [run_cop]. unfold update_model. unfold mbind at 1. unfold read at 1. unfold class_of.
  destruct (a_ext (c_at c)) as [? ? []|? []|? ? ? []] eqn:E; cbn; intros H; try discriminate H; injection H as <- <-;
  unfold update_model_obj, mseq, mbind, seta, raise; cbn; unfold set_obj_id; rewrite E; destruct (_ =? _)%Z; reflexivity.
Qed.
Lemma id_history os n ty : forall c, Forall is_call os -> object_class (class_of c) = Some (n, ty) ->
  forall om, v_id (c_at c) = Some (match om with Some m => name2id m ty n | None => (-1)%Z end) ->
  v_id (c_at (history os c)) = Some (match last_model os om with Some m => name2id m ty n | None => (-1)%Z end).
Proof.
  induction os as [|o os IH]; intros c H K om Hv; [exact Hv|]. apply Forall_cons_iff in H. destruct H as [Ho H]. cbn [history fold_left].
  change (fold_left _ os (after o c)) with (history os (after o c)).
  assert (K' : object_class (class_of (after o c)) = Some (n, ty)) by (assert (Ha : api_op o) by (now destruct o); rewrite (class_step o c Ha : class_of (after o c) = class_of c); exact K).
  destruct (is_bind o) eqn:B.
  - destruct o; try discriminate B. cbn [last_model]. apply IH; auto. now apply id_bind.
  - replace (last_model (o :: os) om) with (last_model os om) by (destruct o; try discriminate B; reflexivity).
    apply IH; auto. now rewrite id_call.
Qed.
