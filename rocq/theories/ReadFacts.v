(** Looking at a component leaves every later answer as it would have been. *)
From Verif Require Import Base Lin LinFacts Mjx Typing Component SpecComponent ComponentFacts ComponentFacts2 SpecSettings SettingFacts Read SpecRead.
Open Scope nat_scope.
#[local] Arguments Nat.ltb : simpl never.
#[local] Arguments Nat.eqb : simpl never.
#[local] Arguments build_component : simpl never.
#[local] Arguments zrange : simpl never.
#[local] Arguments Z.eqb : simpl never.
#[local] Arguments Z.le : simpl never.
#[local] Arguments Z.compare : simpl never.
#[local] Arguments generate_collision_pairs : simpl never.
#[local] Arguments exclude_set : simpl never.
#[local] Arguments count_eq : simpl never.
#[local] Arguments name2id : simpl never.

(** Classes whose mask is settled by the constructor or by each binding. *)
Definition settled (e : ext) : bool :=
  match e with XTask _ _ (TJoint _) | XBarrier _ (BPos _) | XBarrier _ (BJoint _) => true | _ => false end.
Definition eq_kind (e : ext) : bool := match e with XConstraint _ _ _ CModelEq => true | _ => false end.
Definition minv (a : attrs) : Prop :=
  (settled (a_ext a) = true -> a_mask a = None -> a_dim a = (-1)%Z) /\
  (forall s k, a_ext a = XBarrier s (BSelf k) -> a_dim a <> (-1)%Z -> sc_n k = a_dim a).
(** [a1]: looked at; [a2]: not looked at. *)
Definition masked (a : attrs) (l : list Z) : attrs :=
  mkA (a_name a) (a_model a) (a_gain a) (a_gain_fn a) (a_dim a) (Some l) (zrange 0 (a_dim a)) (a_ext a).
Definition sim (a1 a2 : attrs) : Prop :=
  a1 = a2 \/
  (a_mask a2 = None /\ (0 <= a_dim a2)%Z /\ settled (a_ext a2) = false /\
   exists l, a1 = masked a2 l /\ (eq_kind (a_ext a2) = true \/ l = repeat 1%Z (Z.to_nat (a_dim a2)))).

Lemma forced_none a : a_mask a = None -> (0 <= a_dim a)%Z -> forced a = Ok (masked a (repeat 1%Z (Z.to_nat (a_dim a)))).
Proof.
  intros Hm Hd. unfold forced, get_default_mask, dim, zsize. rewrite Hm.
  replace (a_dim a =? -1)%Z with false by (symmetry; apply Z.eqb_neq; lia). cbn.
  replace (a_dim a <? 0)%Z with false by (symmetry; apply Z.ltb_ge; lia). reflexivity.
Qed.
Lemma forced_cases a a' : forced a = Ok a' -> a' = a \/ (a_mask a = None /\ (0 <= a_dim a)%Z /\ a' = masked a (repeat 1%Z (Z.to_nat (a_dim a)))).
Proof.
  intros H. destruct (a_mask a) as [l|] eqn:E.
  - left. unfold forced in H. rewrite E in H. now injection H.
  - right. split; [reflexivity|]. destruct (Z_le_gt_dec 0 (a_dim a)) as [Hd|Hd].
    + split; [exact Hd|]. rewrite (forced_none _ E Hd) in H. now injection H.
    + exfalso. unfold forced, get_default_mask, dim, zsize in H. rewrite E in H.
      destruct (a_dim a =? -1)%Z; cbn in H; [discriminate|].
      replace (a_dim a <? 0)%Z with true in H by (symmetry; apply Z.ltb_lt; lia). discriminate H.
Qed.

(** A look: state of attributes. *)
Lemma mask_snd c : c_at (snd (mask c)) = match forced (c_at c) with Ok a' => a' | Err _ => c_at c end.
Proof.
  unfold mask, mseq, mbind. rewrite force_eq.
  destruct (forced (c_at c)) as [a'|e] eqn:F; cbn; [|reflexivity].
  destruct (a_mask (c_at c)) eqn:E; cbn; [|reflexivity].
  unfold forced in F. rewrite E in F. now injection F.
Qed.
Lemma via_snd {A} (f : A -> value) (m : M A) c : snd (via f m c) = snd (m c).
Proof. unfold via, mbind, ret. now destruct (m c) as [[?|?] ?]. Qed.
Lemma via_fst {A} (f : A -> value) (m : M A) c : fst (via f m c) = vmap_res f (fst (m c)).
Proof. unfold via, mbind, ret. now destruct (m c) as [[?|?] ?]. Qed.
Lemma ignore_snd {A} (m : M A) c : snd (ignore m c) = snd (m c).
Proof. unfold ignore, mbind, ret. now destruct (m c) as [[?|?] ?]. Qed.
Lemma look_state x c : Inv c -> c_at (use_once c (Look x)) = c_at c \/ forced (c_at c) = Ok (c_at (use_once c (Look x))).
Proof.
  intros HI. unfold use_once, run_use. rewrite ignore_snd. destruct x; cbn [get]; try (left; reflexivity).
  - rewrite via_snd, mask_snd. destruct (forced (c_at c)); auto.
  - rewrite via_snd, mask_idxs_snd. destruct (forced (c_at c)); auto.
  - rewrite via_snd. apply (jax_state c HI).
Qed.
Lemma look_Inv x c : Inv c -> Inv (use_once c (Look x)).
Proof.
  intros HI. unfold use_once, run_use. rewrite ignore_snd. destruct x; cbn [get]; try exact HI.
  - rewrite via_snd. apply tracks_Inv; [apply tracks_mask|exact HI].
  - rewrite via_snd. apply tracks_Inv; [apply tracks_mask_idxs|exact HI].
  - rewrite via_snd. apply (jax_state c HI).
Qed.
Lemma do_Inv o c : Inv c -> Inv (use_once c (Do o)).
Proof. exact (after_Inv o c). Qed.

Lemma sim_look a1 a2 a1' : sim a1 a2 -> minv a2 -> forced a1 = Ok a1' -> sim a1' a2.
Proof.
  intros S [I _] F. destruct S as [->|(Hm & Hd & Hs & l & -> & Hl)].
  - destruct (forced_cases _ _ F) as [->|(Hm & Hd & ->)]; [now left|].
    right. split; [exact Hm|]. split; [exact Hd|]. split.
    + destruct (settled (a_ext a2)); [|reflexivity]. specialize (I eq_refl Hm). lia.
    + eexists. split; [reflexivity|now right].
  - assert (a1' = masked a2 l) as -> by (unfold forced in F; cbn in F; now injection F).
    right. repeat (split; [assumption|]). eauto.
Qed.

(** Calls depend on the attributes only. *)
Definition plainm {A} (m : M A) : Prop :=
  forall c1 c2, c_at c1 = c_at c2 -> fst (m c1) = fst (m c2) /\ c_at (snd (m c1)) = c_at (snd (m c2)).
Lemma pl_ret A (x : A) : plainm (ret x). Proof. intros c1 c2 H. now split. Qed.
Lemma pl_raise A e : plainm (@raise A e). Proof. intros c1 c2 H. now split. Qed.
Lemma pl_read A (f : attrs -> res A) : plainm (read f). Proof. intros c1 c2 H. unfold read. cbn. now rewrite H. Qed.
Lemma pl_lift A (r : res A) : plainm (lift r). Proof. intros c1 c2 H. now split. Qed.
Lemma pl_seta f : plainm (seta f). Proof. intros c1 c2 H. unfold seta. cbn. now rewrite H. Qed.
Lemma pl_bind A B (m : M A) (f : A -> M B) : plainm m -> (forall a, plainm (f a)) -> plainm (mbind m f).
Proof.
  intros Hm Hf c1 c2 H. destruct (Hm c1 c2 H) as [E1 E2]. unfold mbind.
  destruct (m c1) as [[a|e] c1'], (m c2) as [[a'|e'] c2']; cbn in *; try discriminate.
  - injection E1 as <-. now apply Hf.
  - injection E1 as <-. now split.
Qed.
Lemma pl_seq A B (m : M A) (m' : M B) : plainm m -> plainm m' -> plainm (mseq m m').
Proof. intros; apply pl_bind; auto. Qed.
Create HintDb pl.
#[export] Hint Resolve pl_ret pl_raise pl_read pl_lift pl_seta : pl.
Ltac plm := repeat first
  [ apply pl_seq | apply pl_bind; [|intros ?] | progress (auto with pl)
  | match goal with |- plainm (match ?x with _ => _ end) => destruct x end
  | match goal with |- plainm (if ?x then _ else _) => destruct x end ].
Lemma pl_force : plainm force_mask. Proof. unfold force_mask. plm. Qed.
Lemma pl_idxs : plainm mask_idxs. Proof. unfold mask_idxs. apply pl_seq; [apply pl_force|plm]. Qed.
#[export] Hint Resolve pl_idxs : pl.
Lemma pl_bj m f : plainm (bind_joint_masks m f). Proof. unfold bind_joint_masks. plm. Qed.
Lemma pl_tq t : plainm (update_target_q t). Proof. unfold update_target_q. plm. Qed.
Lemma pl_qn t : plainm (update_q_min t). Proof. unfold update_q_min. plm. Qed.
Lemma pl_qx t : plainm (update_q_max t). Proof. unfold update_q_max. plm. Qed.
#[export] Hint Resolve pl_bj pl_tq pl_qn pl_qx : pl.
Lemma pl_call o : is_call o -> plainm (run_cop o).
Proof.
  destruct o; cbn [run_cop is_call]; intros []; auto with pl.
  - unfold update_gain. plm.
  - unfold update_model, update_model_obj, update_model_joint_task, update_model_joint_barrier, update_model_self, update_model_equality. plm.
  - unfold update_cost. plm.
  - unfold update_target_com. plm.
  - unfold update_target_pos. plm.
  - unfold update_target_frame. plm.
  - unfold update_p_min. plm.
  - unfold update_p_max. plm.
Qed.

Definition sim2 (r1 r2 : res unit * comp) : Prop := fst r1 = fst r2 /\ sim (c_at (snd r1)) (c_at (snd r2)).
Lemma sim_masked a l : a_mask a = None -> (0 <= a_dim a)%Z -> settled (a_ext a) = false ->
  (eq_kind (a_ext a) = true \/ l = repeat 1%Z (Z.to_nat (a_dim a))) -> sim (masked a l) a.
Proof. intros. right. repeat (split; [assumption|]). eauto. Qed.

Lemma sim_self m nm md g gf d s k mi b1 b2 k1 k2 l :
  (0 <= d)%Z -> sc_n k = d -> l = repeat 1%Z (Z.to_nat d) ->
  sim2 (update_model_self m (mkC (mkA nm md g gf d (Some l) (zrange 0 d) (XBarrier s (BSelf k))) b1 k1))
       (update_model_self m (mkC (mkA nm md g gf d None mi (XBarrier s (BSelf k))) b2 k2)).
Proof.
  intros Hd Hn Hl. unfold update_model_self, mseq, mbind, seta, read, lift, ret, raise, sim2. cbn.
  assert (Fin : forall md' k' mi', sc_n k' = d -> sim (mkA nm md' g gf d (Some l) (zrange 0 d) (XBarrier s (BSelf k'))) (mkA nm md' g gf d None mi' (XBarrier s (BSelf k')))).
  { intros. apply (sim_masked (mkA nm md' g gf d None mi' (XBarrier s (BSelf k'))) l); cbn; auto. }
  assert (Hn1 : (sc_n k =? -1)%Z = false) by (apply Z.eqb_neq; lia).
  destruct (sc_bodies k) as [|bb bs] eqn:Eb; cbn.
  all: destruct (exclude_set m (sc_excl_raw k) []) as [ex|e]; cbn; [|split; [reflexivity|]; apply Fin; exact Hn].
  all: try rewrite Eb; match goal with |- context [generate_collision_pairs ?mm ?b ?ee] => destruct (generate_collision_pairs mm b ee) as [ps|e] end; cbn; [|split; [reflexivity|]; apply Fin; exact Hn].
  all: rewrite Hn1; cbn; split; [reflexivity|]; rewrite Hn; apply Fin; first [exact Hn|reflexivity].
Qed.
Lemma sim_equality m nm md g gf d a h s mi b1 b2 k1 k2 l :
  (0 <= d)%Z ->
  sim2 (update_model_equality m (mkC (mkA nm md g gf d (Some l) (zrange 0 d) (XConstraint a h s CModelEq)) b1 k1))
       (update_model_equality m (mkC (mkA nm md g gf d None mi (XConstraint a h s CModelEq)) b2 k2)).
Proof.
  intros Hd. unfold update_model_equality, mseq, mbind, seta, read, lift, ret, raise, sim2. cbn.
  assert (Fin : forall md' d' mi', (0 <= d')%Z -> sim (mkA nm md' g gf d' (Some l) (zrange 0 d') (XConstraint a h s CModelEq)) (mkA nm md' g gf d' None mi' (XConstraint a h s CModelEq))).
  { intros. apply (sim_masked (mkA nm md' g gf d' None mi' (XConstraint a h s CModelEq)) l); cbn; auto. }
  destruct (if Nat.ltb _ _ then _ else _) as [n|e]; cbn; (split; [reflexivity|]); apply Fin; [apply Nat2Z.is_nonneg|exact Hd].
Qed.
#[local] Arguments update_model_self : simpl never.
#[local] Arguments update_model_equality : simpl never.
Lemma sim_call o c1 c2 : is_call o -> sim (c_at c1) (c_at c2) -> minv (c_at c2) -> sim2 (run_cop o c1) (run_cop o c2).
Proof.
  intros Ho [E|(Hm & Hd & Hs & l & E & Hl)] I.
  - destruct (pl_call o Ho c1 c2 E) as [F1 F2]. split; [exact F1|left; exact F2].
  - destruct c2 as [[nm md g gf d mk mi e] b2 k2]. cbn in *. subst mk. destruct c1 as [a1 b1 k1]. cbn in E. subst a1. unfold masked. cbn.
    assert (Fin : forall md' g' e', settled e' = false -> eq_kind e' = eq_kind e -> sim (mkA nm md' g' gf d (Some l) (zrange 0 d) e') (mkA nm md' g' gf d None mi e')).
    { intros md' g' e' H1 H2. apply (sim_masked (mkA nm md' g' gf d None mi e') l); cbn; auto. now rewrite H2. }
    destruct o; destruct Ho; cbn [run_cop].
    all: try (unfold sim2, update_gain, update_cost, update_target_com, update_target_pos, update_target_frame, update_target_q, update_p_min, update_p_max, update_q_min, update_q_max, mseq, mbind, seta, read, lift, ret, raise; cbn;
      repeat match goal with |- context [match ?x with _ => _ end] => destruct x eqn:?; cbn in *; try discriminate end;
      (split; [reflexivity|apply Fin; auto]); fail).
    unfold update_model, mbind, read. cbn.
    destruct e as [cost lm k|s k|a h s k]; [destruct k as [t|o t|o t|j|f]|destruct k as [p|j|k|f]|destruct k]; cbn in *; try discriminate.
    all: try (unfold sim2, update_model_obj, mseq, mbind, seta, raise; cbn; try destruct (name2id _ _ _ =? -1)%Z; cbn; (split; [reflexivity|apply Fin; auto]); fail).
    + destruct I as [_ I]. destruct Hl as [Hl|Hl]; [discriminate|]. apply sim_self; auto. apply (I s k eq_refl). cbn. lia.
    + now apply sim_equality.
Qed.

(** The invariant holds throughout. *)
Lemma minv_forced a a' : minv a -> forced a = Ok a' -> minv a'.
Proof.
  intros [I1 I2] F. destruct (forced_cases _ _ F) as [->|(Hm & Hd & ->)]; [now split|].
  split; cbn; [discriminate|exact I2].
Qed.
(** Programs that leave a chosen mask chosen. *)
Definition chosen (a : attrs) : Prop := a_mask a <> None /\ settled (a_ext a) = true.
Definition presc {A} (m : M A) : Prop := forall c, chosen (c_at c) -> chosen (c_at (snd (m c))).
Lemma pc_same A (m : M A) : (forall c, snd (m c) = c) -> presc m.
Proof. intros H c Hc. now rewrite H. Qed.
Lemma pc_seta f : (forall a, chosen a -> chosen (f a)) -> presc (seta f).
Proof. intros H c Hc. cbn. auto. Qed.
Lemma pc_bind A B (m : M A) (f : A -> M B) : presc m -> (forall a, presc (f a)) -> presc (mbind m f).
Proof.
  intros Hm Hf c Hc. unfold mbind. specialize (Hm c Hc). destruct (m c) as [[a|e] c']; cbn in *; [|exact Hm]. now apply Hf.
Qed.
Lemma pc_seq A B (m : M A) (m' : M B) : presc m -> presc m' -> presc (mseq m m').
Proof. intros; apply pc_bind; auto. Qed.
Ltac pcm := repeat first
  [ apply pc_seq | apply pc_bind; [|intros ?] | apply pc_same; intros; reflexivity
  | apply pc_seta; intros ? [? ?]; split; cbn; [first [assumption|discriminate]|first [assumption|reflexivity|idtac]]
  | match goal with |- presc (match ?x with _ => _ end) => destruct x end
  | match goal with |- presc (if ?x then _ else _) => destruct x end ].
Lemma chosen_minv a : chosen a -> minv a.
Proof. intros [H1 H2]. split; [intros _ H; congruence|]. intros s k E. rewrite E in H2. discriminate. Qed.
Lemma pc_tq t : presc (update_target_q t). Proof. unfold update_target_q. pcm. Qed.
Lemma pc_qn t : presc (update_q_min t). Proof. unfold update_q_min. pcm. Qed.
Lemma pc_qx t : presc (update_q_max t). Proof. unfold update_q_max. pcm. Qed.
Lemma chosen_jt q a : chosen a -> chosen (set_jt_qidx a q).
Proof. intros [H1 H2]. unfold set_jt_qidx. destruct (a_ext a) as [? ? []| |] eqn:E; split; cbn; auto; now rewrite E. Qed.
Lemma chosen_jb q a : chosen a -> chosen (set_jb_qidx a q).
Proof. intros [H1 H2]. unfold set_jb_qidx. destruct (a_ext a) as [|? []|] eqn:E; split; cbn; auto; now rewrite E. Qed.
Definition bjm_rest (final : option (list Z)) (qv : list Z * list Z) : M (list Z * list Z) :=
  mdo qv' <- match final with
             | None => ret qv
             | Some f =>
                 if negb (zsum (snd qv) =? Z.of_nat (List.length f))%Z then raise ValueError
                 else mdo v' <- lift (scatter_bool (snd qv) f);
                      seta (fun a => set_a_mask a v') ;;
                      mdo q' <- lift (scatter_bool (fst qv) f);
                      ret (q', v')
             end;
  seta (fun a => set_a_mask_idxs a (argwhere (snd qv'))) ;;
  ret (argwhere (fst qv'), argwhere (snd qv')).
Lemma bjm_eq m f c : bind_joint_masks m f c =
  match scalar_masks m with
  | Err e => (Err e, mkC (set_a_model (c_at c) m) true (c_cache c))
  | Ok qv => bjm_rest f qv (mkC (set_a_mask (set_a_model (c_at c) m) (snd qv)) true (c_cache c))
  end.
Proof. unfold bind_joint_masks, bjm_rest. unfold mseq at 1, mbind at 1, seta at 1. unfold mbind at 1, lift at 1. destruct (scalar_masks m); reflexivity. Qed.
Lemma pc_rest f qv : presc (bjm_rest f qv). Proof. unfold bjm_rest. pcm. Qed.
Lemma joint_minv m f B (G : list Z * list Z -> M B) c : minv (c_at c) -> settled (a_ext (c_at c)) = true -> (forall x, presc (G x)) ->
  minv (c_at (snd (mbind (bind_joint_masks m f) G c))).
Proof.
  intros [I1 I2] Hs HG. unfold mbind at 1. rewrite bjm_eq. destruct (scalar_masks m) as [qv|e]; [|split; cbn; auto].
  assert (Hc : chosen (c_at (mkC (set_a_mask (set_a_model (c_at c) m) (snd qv)) true (c_cache c)))) by (split; cbn; [discriminate|exact Hs]).
  pose proof (pc_rest f qv _ Hc) as H. destruct (bjm_rest f qv _) as [[x|e] c']; cbn in *; apply chosen_minv; [now apply HG|exact H].
Qed.
Lemma joint_task_minv m j c : minv (c_at c) -> settled (a_ext (c_at c)) = true -> minv (c_at (snd (update_model_joint_task m j c))).
Proof.
  intros I Hs. unfold update_model_joint_task. apply joint_minv; auto. intros qv.
  apply pc_seq; [apply pc_seta; apply chosen_jt|]. apply pc_seq; [pcm|]. destruct (jt_target j); [pcm|apply pc_tq].
Qed.
Lemma joint_barrier_minv m j c : minv (c_at c) -> settled (a_ext (c_at c)) = true -> minv (c_at (snd (update_model_joint_barrier m j c))).
Proof.
  intros I Hs. unfold update_model_joint_barrier. apply joint_minv; auto. intros qv.
  apply pc_seq; [apply pc_seta; apply chosen_jb|]. apply pc_seq; [pcm|].
  apply pc_seq; [destruct (jb_qmin j); [pcm|apply pc_qn]|destruct (jb_qmax j); [pcm|apply pc_qx]].
Qed.
#[local] Arguments force_mask : simpl never.
#[local] Arguments update_model_joint_task : simpl never.
#[local] Arguments update_model_joint_barrier : simpl never.
Lemma minv_call o c : is_call o -> minv (c_at c) -> minv (c_at (after o c)).
Proof.
  intros Ho HI. unfold after.
  assert (Hf : forall a', forced (c_at c) = Ok a' -> minv a') by (intros; eapply minv_forced; eauto).
  destruct HI as [I1 I2].
  destruct c as [[nm md g gf d mk mi e] b k]. cbn [c_at a_mask a_dim a_ext] in *.
  destruct o; destruct Ho; cbn [run_cop].
  - unfold update_gain, seta, raise. destruct (Nat.ltb _ _); cbn; split; auto.
  - unfold update_model, mbind, read. cbn.
    destruct e as [cost lm kk|s kk|a h s kk]; [destruct kk as [t|o t|o t|j|f]|destruct kk as [p|j|kk|f]|destruct kk]; cbn in *.
    all: try (split; cbn; auto; discriminate).
    + unfold update_model_obj, mseq, mbind, seta, raise; cbn. destruct (name2id _ _ _ =? -1)%Z; split; cbn; auto; discriminate.
    + unfold update_model_obj, mseq, mbind, seta, raise; cbn. destruct (name2id _ _ _ =? -1)%Z; split; cbn; auto; discriminate.
    + apply joint_task_minv; [split; auto|reflexivity].
    + unfold update_model_obj, mseq, mbind, seta, raise; cbn. destruct (name2id _ _ _ =? -1)%Z; split; cbn; auto; discriminate.
    + apply joint_barrier_minv; [split; auto|reflexivity].
    + unfold update_model_self, mseq, mbind, seta, read, lift, ret, raise. cbn.
      assert (Fin : forall md' d' kk', (d' <> (-1)%Z -> sc_n kk' = d') -> minv (mkA nm md' g gf d' mk mi (XBarrier s (BSelf kk')))).
      { intros. split; cbn; [discriminate|]. intros ? ? E. injection E as <- <-. auto. }
      specialize (I2 s kk eq_refl).
      destruct (sc_bodies kk) as [|bb bs] eqn:Eb; cbn.
      all: destruct (exclude_set m (sc_excl_raw kk) []) as [ex|e]; cbn; [|apply Fin; exact I2].
      all: try rewrite Eb; match goal with |- context [generate_collision_pairs ?mm ?b ?ee] => destruct (generate_collision_pairs mm b ee) as [ps|e] end; cbn; [|apply Fin; exact I2].
      all: destruct (sc_n kk =? -1)%Z; cbn; apply Fin; reflexivity.
    + unfold update_model_equality, mseq, mbind, seta, read, lift, ret, raise. cbn.
      destruct (if Nat.ltb _ _ then _ else _) as [n|e]; cbn; split; cbn; discriminate.
  - unfold update_cost, mbind, seta, read, lift, ret, raise. cbn. repeat (match goal with |- context [match ?x with _ => _ end] => destruct x eqn:?; cbn in *; try discriminate end); (split; cbn; auto; discriminate).
  - unfold update_target_com, mbind, seta, read, lift, ret, raise. cbn. repeat (match goal with |- context [match ?x with _ => _ end] => destruct x eqn:?; cbn in *; try discriminate end); (split; cbn; auto; discriminate).
  - unfold update_target_pos, mbind, seta, read, lift, ret, raise. cbn. repeat (match goal with |- context [match ?x with _ => _ end] => destruct x eqn:?; cbn in *; try discriminate end); (split; cbn; auto; discriminate).
  - unfold update_target_frame, mbind, seta, read, lift, ret, raise. cbn. repeat (match goal with |- context [match ?x with _ => _ end] => destruct x eqn:?; cbn in *; try discriminate end); (split; cbn; auto; discriminate).
  - unfold update_target_q, mbind, seta, read, lift, ret, raise. cbn. destruct e as [? ? []| |]; cbn in *; try (split; cbn; auto; fail).
    destruct (d =? -1)%Z; cbn; [split; cbn; auto; discriminate|].
    destruct (last_dim_neq t d) as [[|]|]; cbn; split; cbn; auto; discriminate.
  - unfold update_p_min, mask_idxs, mseq, mbind, seta, read, lift, ret, raise. cbn.
    destruct e as [| s [p| | |]|]; cbn; try (split; cbn; auto; fail). rewrite force_eq. cbn [c_at].
    destruct (forced _) as [a'|] eqn:F; cbn; [|split; auto].
    destruct mk as [l|]; [|destruct (forced_cases _ _ F) as [->|(_ & Hd & _)]; [cbn in *; unfold forced in F; cbn in F; rewrite (I1 eq_refl eq_refl) in F; discriminate F|cbn in Hd; rewrite (I1 eq_refl eq_refl) in Hd; lia]].
    unfold forced in F. cbn in F. injection F as <-. cbn.
    destruct (Nat.eqb (ndim t) 0); cbn.
    + destruct (scalar_of t); cbn; [|split; cbn; auto]. destruct (negb _); cbn; split; cbn; auto; discriminate.
    + destruct (last_dim_neq t _) as [[|]|]; cbn; try (split; cbn; auto; fail). destruct (negb _); cbn; split; cbn; auto; discriminate.
  - unfold update_p_max, mask_idxs, mseq, mbind, seta, read, lift, ret, raise. cbn.
    destruct e as [| s [p| | |]|]; cbn; try (split; cbn; auto; fail). rewrite force_eq. cbn [c_at].
    destruct (forced _) as [a'|] eqn:F; cbn; [|split; auto].
    destruct mk as [l|]; [|destruct (forced_cases _ _ F) as [->|(_ & Hd & _)]; [cbn in *; unfold forced in F; cbn in F; rewrite (I1 eq_refl eq_refl) in F; discriminate F|cbn in Hd; rewrite (I1 eq_refl eq_refl) in Hd; lia]].
    unfold forced in F. cbn in F. injection F as <-. cbn.
    destruct (Nat.eqb (ndim t) 0); cbn.
    + destruct (scalar_of t); cbn; [|split; cbn; auto]. destruct (negb _); cbn; split; cbn; auto; discriminate.
    + destruct (last_dim_neq t _) as [[|]|]; cbn; try (split; cbn; auto; fail). destruct (negb _); cbn; split; cbn; auto; discriminate.
  - unfold update_q_min, mbind, seta, read, lift, ret, raise. cbn. repeat (match goal with |- context [match ?x with _ => _ end] => destruct x eqn:?; cbn in *; try discriminate end); (split; cbn; auto; discriminate).
  - unfold update_q_max, mbind, seta, read, lift, ret, raise. cbn. repeat (match goal with |- context [match ?x with _ => _ end] => destruct x eqn:?; cbn in *; try discriminate end); (split; cbn; auto; discriminate).
Qed.
