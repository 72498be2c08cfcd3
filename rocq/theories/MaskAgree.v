(** The two views of a component's selection along every history. *)
From Coq Require Import Sorted.
From Verif Require Import Base Lin Mjx Typing Component SpecComponent BindFacts ComponentFacts ComponentFacts2 BindFacts2.

Definition keeps (P : attrs -> Prop) {A} (m : M A) : Prop := forall c, P (c_at c) -> P (c_at (snd (m c))).
Section Keeps.
Context (P : attrs -> Prop).
Lemma keeps_ret A (x : A) : keeps P (ret x). Proof. intros c H. exact H. Qed.
Lemma keeps_raise A e : keeps P (@raise A e). Proof. intros c H. exact H. Qed.
Lemma keeps_read A (f : attrs -> res A) : keeps P (read f). Proof. intros c H. exact H. Qed.
Lemma keeps_lift A (r : res A) : keeps P (lift r). Proof. intros c H. exact H. Qed.
Lemma keeps_seta f : (forall a, P a -> P (f a)) -> keeps P (seta f). Proof. intros F c H. exact (F _ H). Qed.
Lemma keeps_bind A B (m : M A) (f : A -> M B) : keeps P m -> (forall a, keeps P (f a)) -> keeps P (mbind m f).
Proof. intros Hm Hf c H. unfold mbind. specialize (Hm c H). destruct (m c) as [[a|e] c']; cbn in *; [apply Hf, Hm|exact Hm]. Qed.
Lemma keeps_seq A B (m : M A) (m' : M B) : keeps P m -> keeps P m' -> keeps P (mseq m m').
Proof. intros; apply keeps_bind; auto. Qed.
End Keeps.
Ltac kp :=
  repeat first
    [ progress intros
    | apply keeps_ret | apply keeps_raise | apply keeps_read | apply keeps_lift
    | apply keeps_seq | apply keeps_bind
    | match goal with |- keeps _ (match ?x with _ => _ end) => destruct x eqn:? end
    | match goal with |- keeps _ (let '(_, _) := ?x in _) => destruct x eqn:? end ].

(** Not the equality constraint; and [mask_idxs] are the non-zero positions of [mask]. *)
Definition is_equality (e : ext) : bool := match e with XConstraint _ _ _ CModelEq => true | _ => false end.
Definition agree (a : attrs) : Prop := is_equality (a_ext a) = false /\ match a_mask a with None => True | Some mk => a_mask_idxs a = argwhere mk end.

Lemma combine_seq_ones n k : filter (fun p : nat * Z => negb (snd p =? 0)%Z) (combine (seq k n) (repeat 1%Z n)) = combine (seq k n) (repeat 1%Z n).
Proof. revert k. induction n as [|n IH]; intros k; cbn; [reflexivity|]. now rewrite IH. Qed.
Lemma argwhere_ones n : argwhere (repeat 1%Z n) = zrange 0 (Z.of_nat n).
Proof.
  unfold argwhere. rewrite repeat_length, combine_seq_ones. unfold zrange. rewrite Z.sub_0_r, Nat2Z.id. generalize 0 as k. induction n as [|n IH]; intros k; cbn; [reflexivity|]. now rewrite IH.
Qed.
Lemma forced_default a a' : a_mask a = None -> forced a = Ok a' -> exists n, a_dim a = Z.of_nat n /\ a' = set_a_mask_idxs (set_a_mask a (repeat 1%Z n)) (zrange 0 (Z.of_nat n)).
Proof.
  intros E. unfold forced. rewrite E. destruct (a_dim a =? -1)%Z eqn:D; [discriminate|]. unfold get_default_mask, dim, zsize. rewrite D. cbn [bind].
  destruct (a_dim a <? 0)%Z eqn:N; [discriminate|]. cbn [bind]. intros H. injection H as <-. apply Z.ltb_ge in N. exists (Z.to_nat (a_dim a)). rewrite Z2Nat.id by exact N. auto.
Qed.
Definition stable (P : attrs -> Prop) : Prop := forall a a', forced a = Ok a' -> P a -> P a'.
Lemma keeps_force P : stable P -> keeps P force_mask.
Proof.
  intros S c H. rewrite force_eq. destruct (forced (c_at c)) as [a'|e] eqn:F; [|exact H]. cbn. destruct (a_mask (c_at c)); [exact H|]. cbn. exact (S _ _ F H).
Qed.
Lemma keeps_mask P : stable P -> keeps P mask.
Proof. intros S. unfold mask. apply keeps_seq; [now apply keeps_force|apply keeps_read]. Qed.
Lemma keeps_mask_idxs P : stable P -> keeps P mask_idxs.
Proof. intros S. unfold mask_idxs. apply keeps_seq; [now apply keeps_force|apply keeps_read]. Qed.
Lemma keeps_build P : stable P -> keeps P build_component.
Proof. intros S. unfold build_component. repeat (apply keeps_bind; [try apply keeps_read; now apply keeps_mask_idxs|intros ?]); apply keeps_ret. Qed.
Lemma keeps_jax P : stable P -> keeps P jax_component.
Proof.
  intros S. unfold jax_component. apply keeps_bind; [apply keeps_read|]. intros [m|]; [|apply keeps_raise]. apply keeps_bind; [apply keeps_read|]. intros d. destruct (d =? -1)%Z; [apply keeps_raise|].
  intros c H. destruct (c_modified c); [|destruct (c_cache c); exact H]. pose proof (keeps_build P S c H) as K. destruct (build_component c) as [[j|e] c']; exact K.
Qed.


(** ** All components but equality constraints *)
Lemma agree_stable : stable agree.
Proof.
  intros a a' F [E H]. destruct (a_mask a) as [mk|] eqn:M.
  - unfold forced in F. rewrite M in F. injection F as <-. split; [exact E|]. now rewrite M.
  - destruct (forced_default a a' M F) as (n & _ & ->). split; [exact E|]. cbn. now rewrite argwhere_ones.
Qed.
Ltac ka := kp; try (apply keeps_mask_idxs, agree_stable); try (apply keeps_seta; let x := fresh "x" in let E0 := fresh "E" in let H0 := fresh "H" in intros x [E0 H0]; split; [first [reflexivity|exact E0]|exact H0]).
Lemma agree_setters t f : keeps agree (update_gain t) /\ keeps agree (update_cost t) /\ keeps agree (update_target_com t) /\ keeps agree (update_target_pos t) /\ keeps agree (update_target_frame f) /\ keeps agree (update_target_q t) /\
  keeps agree (update_p_min t) /\ keeps agree (update_p_max t) /\ keeps agree (update_q_min t) /\ keeps agree (update_q_max t).
Proof.
  split; [unfold update_gain; ka|]. split; [unfold update_cost; ka|]. split; [unfold update_target_com; ka|]. split; [unfold update_target_pos; ka|]. split; [unfold update_target_frame; ka|]. split; [unfold update_target_q; ka|].
  assert (B : forall (g : M unit), keeps agree g -> keeps agree g) by auto.
  split; [|split; [|split; [unfold update_q_min; ka|unfold update_q_max; ka]]].
  - unfold update_p_min. apply keeps_bind; [apply keeps_read|]. intros e. destruct e as [| |]; try apply keeps_raise. destruct k; try apply keeps_raise. apply keeps_bind; [apply keeps_mask_idxs, agree_stable|]. intros idx. ka.
  - unfold update_p_max. apply keeps_bind; [apply keeps_read|]. intros e. destruct e as [| |]; try apply keeps_raise. destruct k; try apply keeps_raise. apply keeps_bind; [apply keeps_mask_idxs, agree_stable|]. intros idx. ka.
Qed.
Lemma agree_obj m o : keeps agree (update_model_obj m o).
Proof.
  unfold update_model_obj. apply keeps_seq.
  - apply keeps_seta. intros a [E H]. unfold set_obj_id. destruct (a_ext a) as [c l k|s k|] eqn:X; try (split; [rewrite X; exact E|exact H]); destruct k; try (split; [rewrite X; exact E|exact H]); split; first [reflexivity|exact H].
  - ka.
Qed.
Lemma agree_self m : keeps agree (update_model_self m).
Proof.
  assert (U : forall f, keeps agree (seta (upd_self f))).
  { intros f. apply keeps_seta. intros a [E H]. unfold upd_self. destruct (a_ext a) as [| s k|] eqn:X; try (split; [rewrite X; exact E|exact H]). destruct k; try (split; [rewrite X; exact E|exact H]). split; [reflexivity|exact H]. }
  unfold update_model_self. kp; try apply U; apply keeps_seta; intros x [E0 H0]; split; assumption.
Qed.
Lemma bind_ok A B (m : M A) (f : A -> M B) c x c' : m c = (Ok x, c') -> mbind m f c = f x c'.
Proof. intros H. unfold mbind. now rewrite H. Qed.
Lemma bind_err A B (m : M A) (f : A -> M B) c e c' : m c = (Err e, c') -> mbind m f c = (Err e, c').
Proof. intros H. unfold mbind. now rewrite H. Qed.
(** A successful joint binding makes the views agree. *)
Lemma bind_joint_agree m f c qv c' : is_equality (a_ext (c_at c)) = false -> bind_joint_masks m f c = (Ok qv, c') -> agree (c_at c') /\ a_ext (c_at c') = a_ext (c_at c).
Proof.
  intros E. unfold bind_joint_masks, mbind, mseq, seta, lift, ret, raise. cbn. destruct (scalar_masks m) as [[q v]|]; cbn; [|discriminate]. destruct f as [f|]; cbn.
  - match goal with |- context [if negb ?b then _ else _] => destruct b end; cbn; [|discriminate]. destruct (scatter_bool v f) as [v'|]; cbn; [|discriminate]. destruct (scatter_bool q f) as [q'|]; cbn; [|discriminate].
    intros H. injection H as _ <-. cbn. split; [split; [exact E|reflexivity]|reflexivity].
  - intros H. injection H as _ <-. cbn. split; [split; [exact E|reflexivity]|reflexivity].
Qed.
Lemma agree_joint_task m j c : is_equality (a_ext (c_at c)) = false -> fst (update_model_joint_task m j c) = Ok tt -> agree (c_at (snd (update_model_joint_task m j c))).
Proof.
  intros E. unfold update_model_joint_task. destruct (bind_joint_masks m (jt_final j) c) as [[qv|e] c'] eqn:B; [|rewrite (bind_err _ _ _ _ _ _ _ B); discriminate]. rewrite (bind_ok _ _ _ _ _ _ _ B). intros _. destruct (bind_joint_agree _ _ _ _ _ E B) as [A _].
  match goal with |- agree (c_at (snd (?g c'))) => assert (K : keeps agree g); [|exact (K c' A)] end.
  apply keeps_seq; [apply keeps_seta; intros a [Ea Ha]; unfold set_jt_qidx; destruct (a_ext a) as [cc l k| |] eqn:X; try (split; [rewrite X; exact Ea|exact Ha]); destruct k; try (split; [rewrite X; exact Ea|exact Ha]); split; [reflexivity|exact Ha]|].
  apply keeps_seq; [apply keeps_seta; intros a [Ea Ha]; split; assumption|]. destruct (jt_target j); [ka|]. apply (agree_setters _ (FSE3 (tvec []))).
Qed.
Lemma agree_joint_barrier m j c : is_equality (a_ext (c_at c)) = false -> fst (update_model_joint_barrier m j c) = Ok tt -> agree (c_at (snd (update_model_joint_barrier m j c))).
Proof.
  intros E. unfold update_model_joint_barrier. destruct (bind_joint_masks m (jb_final j) c) as [[qv|e] c'] eqn:B; [|rewrite (bind_err _ _ _ _ _ _ _ B); discriminate]. rewrite (bind_ok _ _ _ _ _ _ _ B). intros _. destruct (bind_joint_agree _ _ _ _ _ E B) as [A _].
  match goal with |- agree (c_at (snd (?g c'))) => assert (K : keeps agree g); [|exact (K c' A)] end.
  apply keeps_seq; [apply keeps_seta; intros a [Ea Ha]; unfold set_jb_qidx; destruct (a_ext a) as [|s k|] eqn:X; try (split; [rewrite X; exact Ea|exact Ha]); destruct k; try (split; [rewrite X; exact Ea|exact Ha]); split; [reflexivity|exact Ha]|].
  apply keeps_seq; [apply keeps_seta; intros a [Ea Ha]; split; assumption|]. apply keeps_seq; [destruct (jb_qmin j); [ka|]|destruct (jb_qmax j); [ka|]]; apply (agree_setters _ (FSE3 (tvec []))).
Qed.
Lemma agree_update m c : agree (c_at c) -> fst (update_model m c) = Ok tt -> agree (c_at (snd (update_model m c))).
Proof.
  intros A Ok. unfold update_model, mbind, read in *. destruct (a_ext (c_at c)) as [cost lm k|s k|act h so k] eqn:E; cbn in *; try destruct k; cbn in *;
    try (apply agree_obj; exact A); try (apply agree_self; exact A); try (split; [exact (proj1 A)|exact (proj2 A)]).
  - apply agree_joint_task; [exact (proj1 A)|exact Ok].
  - apply agree_joint_barrier; [exact (proj1 A)|exact Ok].
  - destruct A as [A _]. rewrite E in A. discriminate.
Qed.
Lemma agree_calls o : api_op o -> (forall m, o <> OpModel m) -> keeps agree (run_cop o).
Proof.
  intros Ho Hm. destruct o; cbn [run_cop]; try contradiction;
    first [apply (agree_setters t (FSE3 (tvec [])))|apply (agree_setters (tvec []) f)|idtac].
  - now destruct (Hm m).
  - unfold ignore. apply keeps_bind; [apply keeps_mask, agree_stable|intros; apply keeps_ret].
  - unfold ignore. apply keeps_bind; [apply keeps_mask_idxs, agree_stable|intros; apply keeps_ret].
  - unfold ignore. apply keeps_bind; [apply keeps_jax, agree_stable|intros; apply keeps_ret].
Qed.
Lemma agree_after o c : api_op o -> (match o with OpModel m => fst (update_model m c) = Ok tt | _ => True end) -> agree (c_at c) -> agree (c_at (after o c)).
Proof.
  intros Ho Hm A. unfold after. destruct o; try (apply agree_calls; [exact Ho|discriminate|exact A]). now apply agree_update.
Qed.
Lemma agree_history os c : Forall api_op os -> binds_ok os c -> agree (c_at c) -> agree (c_at (history os c)).
Proof.
  revert c. induction os as [|o os IH]; intros c Ho Hb A; [exact A|]. inversion Ho; subst. destruct Hb as [B1 B2]. cbn. apply IH; auto. apply agree_after; auto.
Qed.
Lemma agree_views c : agree (c_at c) -> forall mk idx, fst (mask c) = Ok mk -> fst (mask_idxs c) = Ok idx -> selects mk idx.
Proof.
  intros A mk idx. rewrite mask_fst, mask_idxs_fst. destruct (forced (c_at c)) as [a'|] eqn:F; [|discriminate]. cbn [bind]. destruct (agree_stable _ _ F A) as [_ H]. destruct (forced_mask _ _ F) as (l & M). rewrite M in *. cbn. intros H1 H2. injection H1 as <-. injection H2 as <-. rewrite H. apply argwhere_selects.
Qed.

Lemma init_agree n g gf mk e a : init_component n g gf mk e = Ok a -> a_ext a = e /\ match a_mask a with None => True | Some k => a_mask_idxs a = argwhere k end.
Proof.
  unfold init_component. destruct (Nat.ltb 1 (ndim g)); [discriminate|]. destruct mk as [k|]; [destruct (negb _); [discriminate|]|]; intros H; injection H as <-; cbn; auto.
Qed.
Ltac opens := repeat match goal with
  | H : bind ?r _ = Ok _ |- _ => let x := fresh "x" in let E := fresh "E" in destruct r as [x|] eqn:E; cbn [bind] in H; [|discriminate]
  | H : (if ?b then _ else _) = Ok _ |- _ => destruct b eqn:?; try discriminate
  end.
Lemma init_task_agree n co g gf lm mk k a : init_task n co g gf lm mk k = Ok a -> a_ext a = XTask co lm k /\ match a_mask a with None => True | Some k => a_mask_idxs a = argwhere k end.
Proof. unfold init_task. intros H. opens. destruct (Rlt_dec lm 0); [discriminate|]. opens. injection H as <-. eapply init_agree; eauto. Qed.
(** Every constructor but that of the equality constraint establishes it. *)
Lemma run_init_keeps P c (g : M unit) c' : keeps P g -> P (c_at c) -> run_init c g = Ok c' -> P (c_at c').
Proof. intros K H. unfold run_init. specialize (K c H). destruct (g c) as [[u|e] c'']; [|discriminate]. intros E. injection E as <-. exact K. Qed.
Lemma constructed_agree c : constructed c -> (forall n g h s, new_model_equality n g h s <> Ok c) -> agree (c_at c).
Proof.
  intros K NE. destruct K as [? ? ? ? ? ? ? H|? ? ? ? ? ? ? ? ? H|? ? ? ? ? ? ? ? ? H|? ? ? ? ? ? ? H|? ? ? ? ? ? ? ? ? H|nm g on ty lo hi lt gf sdg mk c H|? ? ? ? ? ? ? ? H|? ? ? ? ? ? ? ? ? H|? ? ? ? ? ? ? ? H|? ? ? ? ? H|? ? ? ? ? ? ? ? H].
  - unfold new_com_task in H. opens. injection H as <-. pose proof (init_task_agree _ _ _ _ _ _ _ _ E0) as [X Y]. split; [cbn; rewrite ?X; reflexivity|exact Y].
  - unfold new_position_task in H. opens. injection H as <-. pose proof (init_task_agree _ _ _ _ _ _ _ _ E) as [X Y]. split; [cbn; rewrite ?X; reflexivity|exact Y].
  - unfold new_frame_task in H. opens. injection H as <-. pose proof (init_task_agree _ _ _ _ _ _ _ _ E) as [X Y]. split; [cbn; rewrite ?X; reflexivity|exact Y].
  - unfold new_joint_task in H. opens. injection H as <-. pose proof (init_task_agree _ _ _ _ _ _ _ _ E) as [X Y]. split; [cbn; rewrite ?X; reflexivity|exact Y].
  - unfold new_custom_task in H. opens. injection H as <-. pose proof (init_task_agree _ _ _ _ _ _ _ _ E) as [X Y]. split; [cbn; rewrite ?X; reflexivity|exact Y].
  - clear NE. unfold new_position_barrier in H. opens. pose proof (proj2 (init_agree _ _ _ _ _ _ E)) as A.
    destruct (match x0 with LMin => _ | LMax => _ | LBoth => _ end) as [idxs d]. cbn [c_at] in *.
    assert (B : agree (set_a_ext (set_a_dim x d) (XBarrier sdg (BPos (mkPB (mkO on ty (-1)) x0 idxs (tvec (vzero (List.length (a_mask_idxs x)))) (tvec (vzero (List.length (a_mask_idxs x))))))))) by (split; [reflexivity|exact A]).
    destruct lo as [lo|]; [destruct (run_init _ (update_p_min lo)) as [c1|] eqn:R1; cbn [bind] in H; [|discriminate]; assert (B1 : agree (c_at c1)) by (refine (run_init_keeps agree _ _ _ _ _ R1); [apply (agree_setters _ (FSE3 (tvec [])))|exact B])
      |cbn [bind] in H; match type of H with context [new_comp ?a] => set (c1 := new_comp a) in H; assert (B1 : agree (c_at c1)) by exact B end];
    (destruct hi as [hi|]; [exact (run_init_keeps agree _ _ _ (proj1 (proj2 (proj2 (proj2 (proj2 (proj2 (proj2 (proj2 (agree_setters hi (FSE3 (tvec [])))))))))) ) B1 H)|injection H as <-; exact B1]).
  - unfold new_joint_barrier in H. opens. injection H as <-. pose proof (init_agree _ _ _ _ _ _ E) as [X Y]. split; [cbn; rewrite ?X; reflexivity|exact Y].
  - unfold new_self_collision in H. opens. injection H as <-. pose proof (init_agree _ _ _ _ _ _ E) as [X Y]. split; [cbn; rewrite ?X; reflexivity|exact Y].
  - unfold new_custom_barrier in H. opens. injection H as <-. pose proof (init_agree _ _ _ _ _ _ E) as [X Y]. split; [cbn; rewrite ?X; reflexivity|exact Y].
  - now destruct (NE _ _ _ _ H).
  - unfold new_custom_constraint in H. opens. injection H as <-. pose proof (init_agree _ _ _ _ _ _ E) as [X Y]. split; [cbn; rewrite ?X; reflexivity|exact Y].
Qed.

(** ** Equality constraints *)
Definition eq_state (a : attrs) : Prop := is_equality (a_ext a) = true /\
  ((a_mask a = None /\ a_dim a = (-1)%Z) \/ exists n, a_dim a = Z.of_nat n /\ a_mask_idxs a = zrange 0 (Z.of_nat n) /\ (a_mask a = None \/ exists k, a_mask a = Some (repeat 1%Z k))).
Lemma eq_stable : stable eq_state.
Proof.
  intros a a' F [E H]. destruct (a_mask a) as [mk|] eqn:M.
  - unfold forced in F. rewrite M in F. injection F as <-. rewrite <- M in H. split; [exact E|exact H].
  - destruct (forced_default a a' M F) as (n & D & ->). split; [exact E|]. right. exists n. cbn. split; [exact D|]. split; [reflexivity|]. right. now exists n.
Qed.
Lemma eq_kind c : eq_state (c_at c) -> exists ac h s, a_ext (c_at c) = XConstraint ac h s CModelEq.
Proof. intros [E _]. destruct (a_ext (c_at c)) as [| |ac h s [|]]; try discriminate. now exists ac, h, s. Qed.
Lemma eq_update m c : eq_state (c_at c) -> fst (update_model m c) = Ok tt -> eq_state (c_at (snd (update_model m c))).
Proof.
  intros S. destruct (eq_kind c S) as (ac & h & s & E). destruct S as [I S]. unfold update_model. rewrite (bind_ok _ _ (read (fun a => Ok (a_ext a))) _ c (a_ext (c_at c)) c) by reflexivity. rewrite E.
  unfold update_model_equality, mseq, mbind, seta, lift, ret. match goal with |- context [if Nat.ltb ?x ?y then Err ?e else ?z] => destruct (if Nat.ltb x y then Err e else z) as [n|] end; cbn in *; [|discriminate]. intros _. split; [cbn; now rewrite E|]. right. exists n. cbn. split; [reflexivity|]. split; [reflexivity|].
  destruct S as [[S _]|(k & _ & _ & S)]; auto.
Qed.
Lemma eq_calls o : api_op o -> (forall m, o <> OpModel m) -> keeps eq_state (run_cop o).
Proof.
  intros Ho Hm. destruct o; cbn [run_cop]; try contradiction;
    try (intros c S; destruct (eq_kind c S) as (ac & h & s & E);
      match goal with |- eq_state (c_at (snd (?g c))) => assert (G : g c = (Err AttributeError, c)) end;
      [unfold update_cost, update_target_com, update_target_pos, update_target_frame, update_target_q, update_p_min, update_p_max, update_q_min, update_q_max;
       rewrite (bind_ok _ _ (read (fun a => Ok (a_ext a))) _ c (a_ext (c_at c)) c) by reflexivity; rewrite E; reflexivity|rewrite G; exact S]).
  - unfold update_gain. kp. apply keeps_seta. intros a S. exact S.
  - now destruct (Hm m).
  - unfold ignore. apply keeps_bind; [apply keeps_mask, eq_stable|intros; apply keeps_ret].
  - unfold ignore. apply keeps_bind; [apply keeps_mask_idxs, eq_stable|intros; apply keeps_ret].
  - unfold ignore. apply keeps_bind; [apply keeps_jax, eq_stable|intros; apply keeps_ret].
Qed.
Lemma eq_history os c : Forall api_op os -> binds_ok os c -> eq_state (c_at c) -> eq_state (c_at (history os c)).
Proof.
  revert c. induction os as [|o os IH]; intros c Ho Hb A; [exact A|]. inversion Ho; subst. destruct Hb as [B1 B2]. cbn. apply IH; auto. unfold after. destruct o; try (apply eq_calls; [assumption|discriminate|exact A]). now apply eq_update.
Qed.
Lemma new_eq_state n g h s c : new_model_equality n g h s = Ok c -> eq_state (c_at c).
Proof.
  unfold new_model_equality, init_component. destruct (Nat.ltb 1 (ndim g)); [discriminate|]. cbn. intros H. injection H as <-. split; [reflexivity|]. left. auto.
Qed.
Lemma argwhere_length_ones k n : argwhere (repeat 1%Z k) = zrange 0 (Z.of_nat n) <-> k = n.
Proof.
  split; [|intros ->; apply argwhere_ones]. rewrite argwhere_ones. intros H. apply (f_equal (@List.length Z)) in H. unfold zrange in H. rewrite !map_length, !seq_length in H. lia.
Qed.
Lemma nth_ones k i : i < k -> nth i (repeat 1%Z k) 0%Z = 1%Z.
Proof. revert i. induction k as [|k IH]; intros [|i] H; cbn; try lia. apply IH. lia. Qed.
Lemma selects_ones k n : selects (repeat 1%Z k) (zrange 0 (Z.of_nat n)) <-> k = n.
Proof.
  split; [|intros ->; rewrite <- argwhere_ones; apply argwhere_selects]. intros [_ S].
  assert (Z1 : forall i, In i (zrange 0 (Z.of_nat n)) <-> (0 <= i < Z.of_nat n)%Z).
  { intros i. unfold zrange. rewrite in_map_iff. split; [intros (x & <- & Hx); apply in_seq in Hx; lia|intros Hi; exists (Z.to_nat i); split; [lia|apply in_seq; lia]]. }
  destruct (Nat.lt_trichotomy k n) as [H|[H|H]]; [|exact H|].
  - assert (I : In (Z.of_nat k) (zrange 0 (Z.of_nat n))) by (apply Z1; lia). apply S in I. rewrite repeat_length in I. lia.
  - assert (I : In (Z.of_nat n) (zrange 0 (Z.of_nat n))) by (apply S; rewrite repeat_length, Nat2Z.id, nth_ones by lia; lia). apply Z1 in I. lia.
Qed.
Lemma eq_views c : eq_state (c_at c) -> forall mk idx, fst (mask c) = Ok mk -> fst (mask_idxs c) = Ok idx ->
  exists n, a_dim (c_at c) = Z.of_nat n /\ idx = zrange 0 (Z.of_nat n) /\ Forall (eq 1%Z) mk /\ (selects mk idx <-> List.length mk = n).
Proof.
  intros S mk idx. rewrite mask_fst, mask_idxs_fst. destruct (forced (c_at c)) as [a'|] eqn:F; [|discriminate]. cbn [bind]. destruct (forced_mask _ _ F) as (l & M). rewrite M. intros H1 H2. injection H1 as <-. injection H2 as <-.
  destruct (eq_stable _ _ F S) as [_ [[N _]|(n & D & I & [N|(k & K)])]]; try (rewrite N in M; discriminate). rewrite K in M. injection M as <-. exists n. rewrite I.
  split; [|split; [reflexivity|split; [apply Forall_forall; intros z Hz; symmetry; exact (repeat_spec _ _ _ Hz)|rewrite repeat_length; apply selects_ones]]].
  rewrite <- D. unfold forced in F. destruct (a_mask (c_at c)); [now injection F as <-|]. destruct (a_dim (c_at c) =? -1)%Z; [discriminate|]. destruct (get_default_mask _) as [p|]; cbn in F; [|discriminate]. injection F as <-. reflexivity.
Qed.

(** ** The theorems *)
Lemma views_agree c os mk idx : constructed c -> (forall n g h s, new_model_equality n g h s <> Ok c) -> Forall api_op os -> binds_ok os c ->
  fst (mask (history os c)) = Ok mk -> fst (mask_idxs (history os c)) = Ok idx -> selects mk idx.
Proof. intros K NE Ho Hb. apply agree_views, agree_history; auto. now apply constructed_agree. Qed.
Lemma equality_views n g h s c os mk idx : new_model_equality n g h s = Ok c -> Forall api_op os -> binds_ok os c ->
  fst (mask (history os c)) = Ok mk -> fst (mask_idxs (history os c)) = Ok idx ->
  exists d, a_dim (c_at (history os c)) = Z.of_nat d /\ idx = map Z.of_nat (seq 0 d) /\ Forall (eq 1%Z) mk /\ (selects mk idx <-> List.length mk = d).
Proof.
  intros K Ho Hb M I. destruct (eq_views _ (eq_history os c Ho Hb (new_eq_state _ _ _ _ _ K)) mk idx M I) as (d & D & -> & F & S). exists d. rewrite <- zrange_seq. auto.
Qed.
(** Both views are available or neither. *)
Lemma views_together c : (exists mk, fst (mask c) = Ok mk) <-> (exists idx, fst (mask_idxs c) = Ok idx).
Proof.
  rewrite mask_fst, mask_idxs_fst. destruct (forced (c_at c)) as [a'|] eqn:F; cbn [bind].
  - destruct (forced_mask _ _ F) as (l & M). rewrite M. split; intros _; eexists; reflexivity.
  - split; intros [x X]; discriminate.
Qed.
