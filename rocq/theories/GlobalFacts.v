(** Facts about the global IK loss. *)
From Verif Require Import Base Lin LinFacts Mjx Typing Component Problem JaxComponents GlobalIK SpecQP SpecGlobal.
Open Scope R_scope.

Lemma clip_clamped x : clip x = clamped x.
Proof.
  unfold clip, clamped, Rmin, Rmax. replace (1 / 10 ^ 9) with (/ 1000000000) by lra.
  repeat destruct (Rle_dec _ _); lra.
Qed.
Lemma clamped_range x : 1 / 10 ^ 9 <= clamped x <= 1.
Proof. unfold clamped. repeat destruct (Rle_dec _ _); lra. Qed.
Lemma clamped_mono x y : x <= y -> clamped x <= clamped y.
Proof. unfold clamped. repeat destruct (Rle_dec _ _); lra. Qed.
Lemma ln_le' x y : 0 < x -> x <= y -> ln x <= ln y.
Proof. intros H [h| ->]; [left; now apply ln_increasing|lra]. Qed.
Lemma penalty_nonneg x : 0 <= penalty x.
Proof. unfold penalty. destruct (clamped_range x). pose proof (ln_le' (clamped x) 1 ltac:(lra) ltac:(lra)). rewrite ln_1 in *. lra. Qed.
Lemma penalty_zero x : penalty x = 0 <-> 1 <= x.
Proof.
  unfold penalty. split; intros H.
  - destruct (Rlt_dec x 1) as [h|h]; [|lra]. exfalso. assert (clamped x < 1) by (unfold clamped; repeat destruct (Rle_dec _ _); lra).
    destruct (clamped_range x). pose proof (ln_increasing (clamped x) 1 ltac:(lra) ltac:(lra)). rewrite ln_1 in *. lra.
  - unfold clamped. destruct (Rle_dec _ _); [lra|]. destruct (Rle_dec _ _); [rewrite ln_1; lra|lra].
Qed.
Lemma penalty_antitone x y : x <= y -> penalty y <= penalty x.
Proof. intros H. unfold penalty. destruct (clamped_range x). pose proof (ln_le' (clamped x) (clamped y) ltac:(lra) (clamped_mono x y H)). lra. Qed.
Lemma penalty_max x : penalty x <= 9 * ln 10.
Proof.
  unfold penalty. destruct (clamped_range x). pose proof (ln_le' (1 / 10 ^ 9) (clamped x) ltac:(lra) ltac:(lra)) as K.
  assert (E : ln (1 / 10 ^ 9) = - (9 * ln 10)). { replace (1 / 10 ^ 9) with (/ 10 ^ 9) by lra. rewrite ln_Rinv by lra. rewrite ln_pow by lra. now rewrite INR_IZR_INZ. }
  lra.
Qed.
Lemma penalty_flat x y : x <= 1 / 10 ^ 9 -> y <= 1 / 10 ^ 9 -> penalty x = penalty y.
Proof. intros. unfold penalty, clamped. destruct (Rle_dec x _); [|lra]. destruct (Rle_dec y _); [reflexivity|lra]. Qed.
Lemma penalty_inside x : 1 / 10 ^ 9 <= x <= 1 -> penalty x = - ln x.
Proof. intros. unfold penalty, clamped. destruct (Rle_dec x _); [replace x with (1 / 10 ^ 9) by lra; reflexivity|]. destruct (Rle_dec 1 x); [replace x with 1 by lra|]; reflexivity. Qed.
Lemma penalty_strict x y : 1 / 10 ^ 9 <= x -> x < y -> y <= 1 -> penalty y < penalty x.
Proof. intros. rewrite !penalty_inside by lra. pose proof (ln_increasing x y ltac:(lra) ltac:(lra)). lra. Qed.

Lemma derive_local f g x l : derivable_pt_lim g x l -> (exists d, 0 < d /\ forall y, Rabs (y - x) < d -> f y = g y) -> derivable_pt_lim f x l.
Proof.
  intros H (d & Hd & E) eps He. destruct (H eps He) as [[d' Hd'] K]. exists (mkposreal (Rmin d d') (Rmin_pos _ _ Hd Hd')). cbn. intros h Hh Hl.
  rewrite !E; [apply K; [exact Hh|cbn; eapply Rlt_le_trans; [exact Hl|apply Rmin_r]]|rewrite Rminus_diag_eq, Rabs_R0 by reflexivity; exact Hd|].
  replace (x + h - x) with h by ring. eapply Rlt_le_trans; [exact Hl|apply Rmin_l].
Qed.
Lemma penalty_derivative x : 1 / 10 ^ 9 < x < 1 -> derivable_pt_lim penalty x (- / x).
Proof.
  intros H. apply derive_local with (g := fun y => - ln y).
  - apply (derivable_pt_lim_opp ln). apply derivable_pt_lim_ln. lra.
  - exists (Rmin (x - 1 / 10 ^ 9) (1 - x)). split; [apply Rmin_pos; lra|]. intros y Hy. apply penalty_inside.
    pose proof (Rmin_l (x - 1 / 10 ^ 9) (1 - x)). pose proof (Rmin_r (x - 1 / 10 ^ 9) (1 - x)).
    apply Rabs_def2 in Hy. lra.
Qed.
Lemma penalty_derivative_flat x : x < 1 / 10 ^ 9 -> derivable_pt_lim penalty x 0.
Proof.
  intros H. apply derive_local with (g := fun _ => penalty x); [apply derivable_pt_lim_const|].
  exists (1 / 10 ^ 9 - x). split; [lra|]. intros y Hy. apply Rabs_def2 in Hy. apply penalty_flat; lra.
Qed.
Lemma penalty_derivative_large x : 1 < x -> derivable_pt_lim penalty x 0.
Proof.
  intros H. apply derive_local with (g := fun _ => 0); [apply derivable_pt_lim_const|].
  exists (x - 1). split; [lra|]. intros y Hy. apply Rabs_def2 in Hy. apply penalty_zero. lra.
Qed.

(** ** Sums *)
Lemma wsum_vsum g x : vsum (vmap2 Rmult g x) = wsum g x.
Proof. revert x. induction g as [|a g IH]; intros [|b x]; try reflexivity. cbn. unfold vmap2 in IH. now rewrite IH. Qed.
Lemma dot_square g e : List.length g = List.length e -> dot (vmap2 Rmult g e) e = wsum g (map square e).
Proof.
  revert e. unfold dot, vmul, vmap2. induction g as [|a g IH]; intros [|b e] H; try discriminate; [reflexivity|]. cbn in *.
  rewrite IH by lia. unfold square. ring.
Qed.
Lemma wsum_neg g x : wsum g (map Ropp x) = - wsum g x.
Proof. revert x. induction g as [|a g IH]; intros [|b x]; cbn; try lra. rewrite IH. lra. Qed.
Lemma wsum_nonneg g x : Forall (fun a => 0 <= a) g -> Forall (fun a => 0 <= a) x -> 0 <= wsum g x.
Proof.
  intros Hg. revert x. induction Hg as [|a g Ha Hg IH]; intros x Hx; [destruct x; cbn; lra|]. destruct Hx as [|b x Hb Hx]; cbn; [lra|].
  specialize (IH x Hx). pose proof (Rmult_le_pos a b Ha Hb). lra.
Qed.
Lemma wsum_zero g x : Forall (fun a => 0 <= a) g -> Forall (fun a => 0 <= a) x -> List.length x = List.length g ->
  (wsum g x = 0 <-> forall i a b, nth_error g i = Some a -> nth_error x i = Some b -> a = 0 \/ b = 0).
Proof.
  intros Hg. revert x. induction Hg as [|a g Ha Hg IH]; intros x Hx Hl.
  - split; [intros _ [|i] a b H; discriminate|reflexivity].
  - destruct Hx as [|b x Hb Hx]; [discriminate|]. cbn in Hl. cbn [wsum]. pose proof (Rmult_le_pos a b Ha Hb) as P. pose proof (wsum_nonneg g x Hg Hx) as Q.
    specialize (IH x Hx ltac:(lia)). split.
    + intros E. assert (E1 : a * b = 0) by lra. assert (E2 : wsum g x = 0) by lra. intros [|i] a' b' H1 H2; cbn in *.
      * injection H1 as <-. injection H2 as <-. now apply Rmult_integral.
      * now apply (proj1 IH E2 i).
    + intros H. assert (E2 : wsum g x = 0) by (apply IH; intros i; apply (H (S i))). destruct (H 0%nat a b eq_refl eq_refl) as [->| ->]; rewrite E2; ring.
Qed.
Lemma wsum_le g x y : Forall (fun a => 0 <= a) g -> Forall2 Rle x y -> wsum g x <= wsum g y.
Proof.
  intros Hg. revert x y. induction Hg as [|a g Ha Hg IH]; intros x y H; [destruct x, y; cbn; lra|]. destruct H as [|b c x y Hb H]; cbn; [lra|].
  specialize (IH _ _ H). pose proof (Rmult_le_compat_l a b c Ha Hb). lra.
Qed.
Lemma wsum_scale k g x : wsum (map (Rmult k) g) x = k * wsum g x.
Proof. revert x. induction g as [|a g IH]; intros [|b x]; cbn; try lra. rewrite IH. lra. Qed.
Lemma wsum_bound k g x : Forall (fun a => 0 <= a) g -> Forall (fun b => b <= k) x -> 0 <= k -> wsum g x <= k * total_of g.
Proof.
  intros Hg. revert x. induction Hg as [|a g Ha Hg IH]; intros x Hx Hk; cbn [wsum]; [destruct x; cbn; lra|]. change (total_of (a :: g)) with (a + total_of g).
  assert (T : 0 <= total_of g) by (clear - Hg; unfold total_of; induction Hg; cbn; lra).
  destruct Hx as [|b x Hb Hx]. { pose proof (Rmult_le_pos _ _ Hk (Rplus_le_le_0_compat _ _ Ha T)). lra. }
  specialize (IH x Hx Hk). pose proof (Rmult_le_compat_l a b k Ha Hb). lra.
Qed.
Lemma bc2_same f a b : List.length a = List.length b -> bc2 f a b = Ok (vmap2 f a b).
Proof. intros H. unfold bc2. rewrite H, Nat.eqb_refl. reflexivity. Qed.
Lemma Forall_square e : Forall (fun a => 0 <= a) (map square e).
Proof. apply Forall_map, Forall_forall. intros x _. unfold square. nra. Qed.
Lemma Forall_penalty e : Forall (fun a => 0 <= a) (map penalty e).
Proof. apply Forall_map, Forall_forall. intros x _. apply penalty_nonneg. Qed.

(** ** The loss *)
Lemma add_loss_value L d j x loss : contributes L d j x -> add_loss L d loss j = Ok (loss + x).
Proof.
  intros (e & Hc & Hl & Hk & ->). unfold add_loss, is_constraint, is_barrier in *. destruct (j_ext j) as [W lm k|s k|a h W k]; [| |discriminate].
  - rewrite Hc. cbn [bind]. rewrite bc2_same by congruence. cbn [bind].
    replace (Nat.eqb _ _) with true by (symmetry; apply Nat.eqb_eq; unfold vmap2; rewrite map_length, combine_length; lia).
    now rewrite dot_square by congruence.
  - rewrite Hc. cbn [bind]. unfold log_barrier. rewrite bc2_same by (rewrite !map_length; congruence). cbn [bind]. f_equal.
    rewrite wsum_vsum, map_map. replace (map penalty e) with (map Ropp (map (fun x => ln (clip x)) e)).
    + rewrite wsum_neg. ring.
    + rewrite map_map. apply map_ext. intros y. unfold penalty. now rewrite clip_clamped.
Qed.
Lemma loss_of_value L d js xs loss : Forall2 (contributes L d) (map snd js) xs -> loss_of L d loss js = Ok (loss + total_of xs).
Proof.
  revert xs loss. induction js as [|[n j] js IH]; intros xs loss H; inversion H; subst; cbn [loss_of].
  - unfold total_of. cbn. f_equal. lra.
  - erewrite add_loss_value by eassumption. cbn [bind]. erewrite IH by eassumption. f_equal. unfold total_of. cbn. lra.
Qed.
Lemma loss_value L q pd xs : contributions L (update L (jd_model pd) q) pd xs -> loss_fn L q pd = Ok (total_of xs).
Proof. intros H. unfold loss_fn. erewrite loss_of_value by exact H. f_equal. lra. Qed.
Lemma loss_constraint L q pd js1 n j js2 xs : jd_comps pd = js1 ++ (n, j) :: js2 -> Forall2 (contributes L (update L (jd_model pd) q)) (map snd js1) xs ->
  is_constraint j = true -> loss_fn L q pd = Err NotImplementedError.
Proof.
  intros E H Hj. unfold loss_fn. rewrite E. generalize 0 as loss. clear E. revert xs H. induction js1 as [|[n1 j1] js1 IH]; intros xs H loss; cbn.
  - unfold add_loss, is_constraint in *. destruct (j_ext j); try discriminate. reflexivity.
  - cbn in H. inversion H as [|? ? ? ys H1 H2]; subst. erewrite add_loss_value by eassumption. cbn [bind]. exact (IH ys H2 _).
Qed.
Lemma contribution_nonneg L d j x : contributes L d j x -> nonneg_gain j -> 0 <= x.
Proof. intros (e & _ & _ & _ & ->) Hg. apply wsum_nonneg; [exact Hg|]. destruct (is_barrier j); [apply Forall_penalty|apply Forall_square]. Qed.
Lemma contribution_zero L d j x : contributes L d j x -> nonneg_gain j -> (x = 0 <-> content L d j).
Proof.
  intros (e & Hc & Hl & _ & ->) Hg. rewrite wsum_zero; [|exact Hg|destruct (is_barrier j); [apply Forall_penalty|apply Forall_square]|now rewrite map_length].
  split.
  - intros H. exists e. split; [exact Hc|]. intros i g x H1 H2. destruct (H i g ((if is_barrier j then penalty else square) x) H1) as [|E]; [now apply map_nth_error|now left|right].
    destruct (is_barrier j); [now apply penalty_zero|]. unfold square in E. now apply Rmult_integral in E as [].
  - intros (e' & Hc' & H) i a b H1 H2. rewrite Hc in Hc'. injection Hc' as <-. rewrite nth_error_map in H2. destruct (nth_error e i) as [y|] eqn:Ey; [|discriminate]. injection H2 as <-.
    destruct (H i a y H1 Ey) as [|K]; [now left|right]. destruct (is_barrier j); [now apply penalty_zero|]. unfold square. subst. ring.
Qed.
Lemma total_nonneg xs : Forall (fun a => 0 <= a) xs -> 0 <= total_of xs.
Proof. unfold total_of. induction 1; cbn; lra. Qed.
Lemma total_zero xs : Forall (fun a => 0 <= a) xs -> (total_of xs = 0 <-> Forall (fun a => a = 0) xs).
Proof.
  induction 1 as [|x xs Hx H IH]; cbn; [split; [constructor|reflexivity]|]. pose proof (total_nonneg xs H). split.
  - change (fold_right Rplus 0 xs) with (total_of xs). intros E. assert (total_of xs = 0) by lra. constructor; [lra|now apply IH].
  - change (fold_right Rplus 0 xs) with (total_of xs). intros F. inversion F; subst. assert (total_of xs = 0) by now apply IH. lra.
Qed.
Lemma loss_nonneg L d pd xs : contributions L d pd xs -> Forall nonneg_gain (comps_of pd) -> Forall (fun a => 0 <= a) xs.
Proof. unfold contributions. induction 1 as [|j x js xs Hj H IH]; intros F; constructor; inversion F; subst; [now apply (contribution_nonneg L d j)|auto]. Qed.
Lemma loss_zero L q pd xs : let d := update L (jd_model pd) q in contributions L d pd xs -> Forall nonneg_gain (comps_of pd) ->
  (loss_fn L q pd = Ok 0 <-> Forall (content L d) (comps_of pd)).
Proof.
  intros d H F. rewrite (loss_value L q pd xs H). pose proof (loss_nonneg L d pd xs H F) as P. split.
  - intros E. injection E as E. rewrite total_zero in E by exact P. clear P. unfold contributions in H. induction H as [|j x js xs Hj H IH]; constructor; inversion E; inversion F; subst; [|auto].
    now apply (contribution_zero L d j 0 Hj).
  - intros C. f_equal. apply total_zero; [exact P|]. clear P. unfold contributions in H. induction H as [|j x js xs Hj H IH]; constructor; inversion C; inversion F; subst; [|auto].
    now apply (contribution_zero L d j x Hj).
Qed.
Lemma contribution_antitone L d d' j e e' x x' : is_barrier j = true -> nonneg_gain j -> call L j d = Ok e -> call L j d' = Ok e' -> Forall2 Rle e e' ->
  contributes L d j x -> contributes L d' j x' -> x' <= x.
Proof.
  intros Hb Hg He He' Hle (e1 & E1 & _ & _ & ->) (e2 & E2 & _ & _ & ->). rewrite He in E1. rewrite He' in E2. injection E1 as <-. injection E2 as <-. rewrite Hb.
  apply wsum_le; [exact Hg|]. clear - Hle. induction Hle; cbn; constructor; [now apply penalty_antitone|assumption].
Qed.

(** ** Costs and gain functions play no role *)
Lemma same_call L d j j' : same_but_cost j j' -> call L j d = call L j' d.
Proof.
  intros (_ & Hm & _ & Hi & He). unfold call. destruct (j_ext j) as [W lm k|s k|a h W k], (j_ext j') as [W' lm' k'|s' k'|a' h' W' k']; try contradiction; subst k'; rewrite ?Hm, ?Hi; reflexivity.
Qed.
Lemma same_loss L q pd pd' : jd_model pd = jd_model pd' -> Forall2 (fun a b => same_but_cost (snd a) (snd b)) (jd_comps pd) (jd_comps pd') -> loss_fn L q pd = loss_fn L q pd'.
Proof.
  intros Hm H. unfold loss_fn. rewrite <- Hm. generalize (update L (jd_model pd) q) as d. generalize 0 as loss. induction H as [|[n j] [n' j'] js js' Hj H IH]; intros loss d; [reflexivity|].
  cbn in *. assert (E : add_loss L d loss j = add_loss L d loss j').
  { pose proof (same_call L d j j' Hj) as C. destruct Hj as (_ & _ & Hg & _ & He). unfold add_loss. rewrite C, Hg. destruct (j_ext j), (j_ext j'); try contradiction; reflexivity. }
  rewrite E. destruct (add_loss L d loss j'); cbn; [apply IH|reflexivity].
Qed.
Lemma contribution_scale L d j j' k x : is_barrier j = is_barrier j' -> is_constraint j = is_constraint j' -> call L j d = call L j' d -> j_gain j' = map (Rmult k) (j_gain j) ->
  contributes L d j x -> contributes L d j' (k * x).
Proof.
  intros Hb Hc HC Hg (e & He & Hl & Hk & ->). exists e. rewrite <- HC, <- Hb, <- Hc, Hg, map_length, wsum_scale. auto.
Qed.
