(** Existence and uniqueness of the minimiser of the local IK problem. *)
From Coq Require Import Classical.
From Verif Require Import Base Lin LinFacts Mjx Typing Component Problem JaxComponents LocalIK SpecQP QPFacts QPThms QPThms2 QPThms3 SpecSolve CompactFacts.
Open Scope R_scope.

Lemma sq_zero v : sq v = 0 -> v = vzero (List.length v).
Proof.
  unfold sq. induction v as [|x v IH]; intros H; [reflexivity|]. rewrite dot_cons in H. pose proof (dot_self_nonneg v). assert (0 <= x * x) by apply Rle_0_sqr.
  assert (Hx : x * x = 0) by lra. cbn. unfold vzero in *. cbn. rewrite <- IH by lra. f_equal. destruct (Rmult_integral _ _ Hx); assumption.
Qed.
Lemma in_vzero n x : In x (vzero n) -> x = 0.
Proof. unfold vzero. apply repeat_spec. Qed.
Lemma sq_zero_in v : sq v = 0 -> forall x, In x v -> x = 0.
Proof. intros H x Hx. rewrite (sq_zero v H) in Hx. now apply in_vzero in Hx. Qed.
Lemma sq_pos_in v x : In x v -> x <> 0 -> 0 < sq v.
Proof. intros Hi Hx. pose proof (sq_nonneg v). destruct (Req_dec (sq v) 0) as [E|]; [|lra]. elim Hx. exact (sq_zero_in v E x Hi). Qed.

Section Pieces.
Context (L : lib) (nv : nat) (d : mjdata).
Lemma piece_flat j k e : cpiece L nv nv d j = Ok k -> well_shaped L nv d j -> nonneg_weights j -> List.length e = nv -> dot e (mv (ac_H k) e) = 0 ->
  (forall w, weighted_velocity L d j e w -> forall x, In x w -> x = 0) /\ (pins L nv d j -> e = vzero nv).
Proof.
  intros Hk Hs Hn Hv H0. apply cpiece_piece in Hk as [Hk _]. unfold piece in Hk. unfold nonneg_weights in Hn. destruct (j_ext j) as [W lm t|sdg t|act hard W t] eqn:E.
  - unfold process_task in Hk. destruct (jacobian L j d) as [J|] eqn:EJ; [|discriminate]. destruct (call L j d) as [r|] eqn:Er; [|discriminate].
    cbn [bind] in Hk. destruct (Hs J r EJ Er) as [_ Hg]. rewrite mge_eq in Hk by exact Hg. cbn [bind] in Hk.
    destruct (weighted nv W J (vneg (gained j r))) as [[[H We] c]|] eqn:EW; [|discriminate]. cbn [bind] in Hk. injection Hk as <-. cbn [ac_H fst] in H0.
    destruct (weighted_ok _ _ _ _ _ _ _ EW) as (L1 & _ & MH & -> & Lc & QH & Qc).
    rewrite (mv_madd nv) in H0 by (auto; apply mscale_is_mat, eye_is_mat).
    rewrite dot_vadd_r in H0 by (rewrite !mv_length, (proj1 MH); unfold mscale, eye; now rewrite !map_length, seq_length).
    rewrite quad_eye, QH in H0 by auto. rewrite mv_vneg in H0. change (dot (vneg ?a) (vneg ?a)) with (sq (vneg a)) in H0. rewrite sq_vneg in H0.
    change (dot ?a ?a) with (sq a) in H0. cbn [snd] in H0. change (dot ?a ?a) with (sq a) in H0.
    pose proof (sq_nonneg (mv W (mv J e))) as P1. pose proof (sq_nonneg (mv W (gained j r))) as P2. pose proof (sq_nonneg e) as P3.
    assert (P4 : 0 <= lm * sq (mv W (gained j r)) * sq e) by (apply Rmult_le_pos; [apply Rmult_le_pos|]; assumption).
    assert (Z1 : sq (mv W (mv J e)) = 0) by lra. assert (Z2 : lm * sq (mv W (gained j r)) * sq e = 0) by lra.
    assert (F1 : forall x, In x (mv W (mv J e)) -> x = 0) by now apply sq_zero_in. split.
    + intros w Hw. inversion Hw as [W' lm' k' J' E' EJ' Ew|a' W' k' J' E' EJ' Ew]; subst; rewrite E in E'; [|discriminate]. injection E' as <- _ _. rewrite EJ in EJ'. injection EJ' as <-. exact F1.
    + intros Hp. inversion Hp as [W' lm' k' J' E' EJ' Hi|a' W' k' J' E' EJ' Hi|W' lm' k' e' x E' Hl Ec Hin Hne|g' k' E' Hgp]; rewrite E in E'; try discriminate.
      * injection E' as <- _ _. rewrite EJ in EJ'. injection EJ' as <-. now apply Hi.
      * injection E' as <- <- _. rewrite Er in Ec. injection Ec as <-. pose proof (sq_pos_in _ _ Hin Hne) as Hpos.
        apply Rmult_integral in Z2. destruct Z2 as [Z2|Z2]; [apply Rmult_integral in Z2; lra|]. rewrite (sq_zero e Z2) at 1. now rewrite Hv.
  - unfold process_barrier in Hk. destruct (jacobian L j d) as [J|] eqn:EJ; [|discriminate]. cbn [bind] in Hk.
    destruct (Req_EM_T (frob2 J) 0) as [|Hf]; [discriminate|]. destruct (call L j d) as [r|]; [|discriminate]. cbn [bind] in Hk.
    destruct (bc2 _ _ _); [|discriminate]. cbn [bind] in Hk. injection Hk as <-. cbn [ac_H] in H0. rewrite quad_eye in H0 by auto. split.
    + intros w Hw. inversion Hw; congruence.
    + intros Hp. inversion Hp as [W' lm' k' J' E' EJ' Hi|a' W' k' J' E' EJ' Hi|W' lm' k' e' x E' Hl Ec Hin Hne|g' k' E' Hgp]; rewrite E in E'; try discriminate.
      injection E' as <- _. apply Rmult_integral in H0. destruct H0 as [H0|H0].
      * exfalso. unfold Rdiv in H0. apply Rmult_integral in H0. destruct H0 as [H0|H0]; [lra|]. revert H0. now apply Rinv_neq_0_compat.
      * rewrite (sq_zero e H0) at 1. now rewrite Hv.
  - destruct hard.
    + split; [intros w Hw; inversion Hw; congruence|intros Hp; inversion Hp; congruence].
    + unfold process_soft in Hk. destruct (jacobian L j d) as [J|] eqn:EJ; [|discriminate]. destruct (call L j d) as [r|]; [|discriminate].
      cbn [bind] in Hk. destruct (minus_gain_error j r) as [ge|]; [|discriminate]. cbn [bind] in Hk.
      destruct (weighted nv W J ge) as [[[H We] c]|] eqn:EW; [|discriminate]. injection Hk as <-. cbn [ac_H fst] in H0.
      destruct (weighted_ok _ _ _ _ _ _ _ EW) as (L1 & _ & MH & -> & Lc & QH & Qc). rewrite QH in H0. pose proof (sq_zero_in _ H0) as F1. split.
      * intros w Hw. inversion Hw as [W' lm' k' J' E' EJ' Ew|a' W' k' J' E' EJ' Ew]; subst; rewrite E in E'; [discriminate|]. injection E' as _ <- _. rewrite EJ in EJ'. injection EJ' as <-. exact F1.
      * intros Hp. inversion Hp as [W' lm' k' J' E' EJ' Hi|a' W' k' J' E' EJ' Hi|W' lm' k' e' x E' Hl Ec Hin Hne|g' k' E' Hgp]; rewrite E in E'; try discriminate.
        injection E' as _ <- _. rewrite EJ in EJ'. injection EJ' as <-. now apply Hi.
Qed.
End Pieces.

(** Vectors: midpoints. *)
Definition mid (v w : vec) : vec := vscale (1 / 2) (vadd v w).
Lemma mid_length v w : List.length v = List.length w -> List.length (mid v w) = List.length v.
Proof. intros H. unfold mid. rewrite vscale_length, vadd_length; auto. Qed.
Lemma dot_mid r v w : List.length v = List.length w -> dot r (mid v w) = 1 / 2 * dot r v + 1 / 2 * dot r w.
Proof. intros H. unfold mid. rewrite dot_vscale_r, dot_vadd_r by exact H. ring. Qed.
Lemma mv_mid_le G h v w : List.length v = List.length w -> vle (mv G v) h -> vle (mv G w) h -> vle (mv G (mid v w)) h.
Proof.
  intros H. revert h. induction G as [|r G IH]; intros h A B; [inversion A; constructor|]. cbn in *. destruct h as [|b h]; [inversion A|].
  inversion A as [|? ? ? ? A1 A2]; inversion B as [|? ? ? ? B1 B2]; subst. constructor; [rewrite dot_mid by exact H; lra|now apply IH].
Qed.
Lemma mv_mid_eq A b v w : List.length v = List.length w -> mv A v = b -> mv A w = b -> mv A (mid v w) = b.
Proof.
  intros H <-. induction A as [|r A IH]; intros B; [reflexivity|]. cbn in *. injection B as B1 B2. f_equal; [rewrite dot_mid by exact H; lra|now apply IH].
Qed.
Lemma feasible_mid Q v w : List.length v = List.length w -> feasible Q v -> feasible Q w -> feasible Q (mid v w).
Proof.
  intros H [A1 A2] [B1 B2]. split; [now apply mv_mid_le|]. unfold satisfies_eq in *. destruct (qp_eq Q) as [[A b]|]; [|exact I]. now apply mv_mid_eq.
Qed.

Section Assembled.
Context (L : lib) (sm : mjmodel) (pd : jdata) (d : mjdata) (Q : qp).
Context (Hnv : m_nv sm = m_nv (jd_model pd)) (HQ : assemble L sm pd d = Ok Q).
Notation nv := (m_nv (jd_model pd)).

(** Two minimisers differ by a direction without curvature. *)
Lemma flat_difference v w : Forall nonneg_weights (comps_of pd) -> optimal nv Q v -> optimal nv Q w ->
  dot (vsub v w) (mv (qp_P Q) (vsub v w)) = 0.
Proof.
  intros Hn (Lv & Fv & Ov) (Lw & Fw & Ow). assert (Lvw : List.length v = List.length w) by congruence.
  pose proof (Ov w Lw Fw) as A. pose proof (Ow v Lv Fv) as B. pose proof (Ov (mid v w)) as C. rewrite mid_length in C by exact Lvw.
  specialize (C Lv (feasible_mid Q v w Lvw Fv Fw)). destruct (hessian_shape L sm pd d Q Hnv HQ) as [SP Sc].
  assert (Ls : List.length (vsub v w) = nv) by (rewrite vsub_length; lia).
  pose proof (hessian_psd L sm pd d Q Hnv HQ (vsub v w) Hn Ls) as P. pose proof (hessian_sym L sm pd d Q Hnv HQ v w Lv Lw) as S.
  assert (LP : forall t, List.length (mv (qp_P Q) t) = nv) by (intros; rewrite mv_length; apply SP).
  unfold objective in *. rewrite mv_vsub in * by exact Lvw. rewrite dot_vsub_l, !dot_vsub_r in * by (rewrite ?LP; auto).
  unfold mid in C. rewrite dot_vscale_l, dot_vscale_r in C.
  assert (E : mv (qp_P Q) (vscale (1 / 2) (vadd v w)) = vscale (1 / 2) (vadd (mv (qp_P Q) v) (mv (qp_P Q) w))).
  { rewrite <- mv_vadd by exact Lvw. unfold mv, vscale at 2. rewrite map_map. apply map_ext. intros r. apply dot_vscale_r. }
  rewrite E, dot_vscale_r, !dot_vadd_r, !dot_vadd_l in C by (rewrite ?LP; auto; now rewrite vadd_length). rewrite S in *. lra.
Qed.
Lemma flat_pieces e : Forall (well_shaped L nv d) (comps_of pd) -> Forall nonneg_weights (comps_of pd) -> List.length e = nv -> dot e (mv (qp_P Q) e) = 0 ->
  forall j, In j (comps_of pd) -> (forall w, weighted_velocity L d j e w -> forall x, In x w -> x = 0) /\ (pins L nv d j -> e = vzero nv).
Proof.
  intros Hs Hn He H0. destruct (assemble_pieces _ _ _ _ _ HQ) as (ks & F & EP & _). cbv zeta in *. rewrite Hnv in *. destruct (pieces_shape L pd d ks F) as [SH Sc].
  rewrite EP, (fold_madd_bilin nv) in H0 by (auto using mzero_is_mat). rewrite mv_mzero, dot_vzero_r, Rplus_0_l in H0. clear EP SH Sc HQ.
  assert (K : Forall2 (fun j k => cpiece L nv nv d j = Ok k /\ dot e (mv (ac_H k) e) = 0) (comps_of pd) ks).
  { clear Hs. revert Hn H0. induction F as [|j k js ks H F IH]; intros Hn H0; constructor.
    - split; [exact H|]. cbn [map vsum] in H0. inversion Hn; subst. pose proof (piece_psd _ _ _ _ _ H H3 e He).
      assert (0 <= vsum (map (fun H => dot e (mv H e)) (map ac_H ks))); [|lra].
      clear - F H4 He. induction F as [|j k js ks H F IH]; cbn; [lra|]. inversion H4; subst. pose proof (piece_psd _ _ _ _ _ H H2 e He). specialize (IH H3). lra.
    - inversion Hn; subst. apply IH; [assumption|]. cbn [map vsum] in H0. pose proof (piece_psd _ _ _ _ _ H H3 e He).
      assert (0 <= vsum (map (fun H => dot e (mv H e)) (map ac_H ks))); [|lra].
      clear - F H4 He. induction F as [|j k js ks H F IH]; cbn; [lra|]. inversion H4; subst. pose proof (piece_psd _ _ _ _ _ H H2 e He). specialize (IH H3). lra. }
  clear F. revert Hs Hn. induction K as [|j k js ks [H1 H2] K IH]; intros Hs Hn j0 Hj; [destruct Hj|]. inversion Hs; inversion Hn; subst.
  destruct Hj as [->|Hj]; [apply (piece_flat L nv d j0 k e); auto|]. apply IH; auto.
  cbn [map vsum] in H0. lra.
Qed.
Lemma vsub_zero v w : List.length v = List.length w -> vsub v w = vzero (List.length v) -> v = w.
Proof.
  revert w. induction v as [|x v IH]; intros [|y w] H E; try discriminate; [reflexivity|]. unfold vzero in *. cbn in *. injection E as E1 E2. rewrite (IH w) by (auto; lia). f_equal. lra.
Qed.
Lemma unique_optimal v w : Forall (well_shaped L nv d) (comps_of pd) -> Forall nonneg_weights (comps_of pd) -> Exists (pins L nv d) (comps_of pd) ->
  optimal nv Q v -> optimal nv Q w -> v = w.
Proof.
  intros Hs Hn Hp Ov Ow. pose proof (proj1 Ov) as Lv. pose proof (proj1 Ow) as Lw. assert (Lvw : List.length v = List.length w) by congruence.
  apply vsub_zero; [exact Lvw|]. rewrite Lv. apply Exists_exists in Hp. destruct Hp as (j & Hj & Hp).
  destruct (flat_pieces (vsub v w) Hs Hn) with (j := j) as [_ K]; auto; [rewrite vsub_length; lia|now apply flat_difference].
Qed.
Lemma vsub_all_zero a b : List.length a = List.length b -> (forall x, In x (vsub a b) -> x = 0) -> a = b.
Proof.
  revert b. induction a as [|x a IH]; intros [|y b] H E; try discriminate; [reflexivity|]. cbn in *. rewrite (IH b) by (try lia; intros z Hz; apply E; now right). f_equal. specialize (E (x - y) (or_introl eq_refl)). lra.
Qed.
Lemma unique_task_velocity v w : Forall (well_shaped L nv d) (comps_of pd) -> Forall nonneg_weights (comps_of pd) ->
  optimal nv Q v -> optimal nv Q w -> forall j, In j (comps_of pd) -> forall a b, weighted_velocity L d j v a -> weighted_velocity L d j w b -> a = b.
Proof.
  intros Hs Hn Ov Ow j Hj a b Ha Hb. pose proof (proj1 Ov) as Lv. pose proof (proj1 Ow) as Lw. assert (Lvw : List.length v = List.length w) by congruence.
  destruct (flat_pieces (vsub v w) Hs Hn) with (j := j) as [K _]; auto; [rewrite vsub_length; lia|now apply flat_difference|].
  inversion Ha as [W lm k J E EJ|c W k J E EJ]; inversion Hb as [W' lm' k' J' E' EJ'|c' W' k' J' E' EJ']; subst; rewrite E in E'; try discriminate.
  - injection E' as <- _ _. rewrite EJ in EJ'. injection EJ' as <-. apply vsub_all_zero; [now rewrite !mv_length|].
    specialize (K _ (wv_task L d j (vsub v w) W lm k J E EJ)). rewrite mv_vsub in K by exact Lvw. rewrite mv_vsub in K by now rewrite !mv_length. exact K.
  - injection E' as _ <- _. rewrite EJ in EJ'. injection EJ' as <-. apply vsub_all_zero; [now rewrite !mv_length|].
    specialize (K _ (wv_soft L d j (vsub v w) c W k J E EJ)). rewrite mv_vsub in K by exact Lvw. rewrite mv_vsub in K by now rewrite !mv_length. exact K.
Qed.

(** Feasible velocities are the admissible ones. *)
Lemma feasible_admissible v : Forall (well_shaped L nv d) (comps_of pd) -> List.length (jd_vmin pd) = nv -> List.length (jd_vmax pd) = nv ->
  List.length v = nv -> (feasible Q v <-> admissible L d pd v).
Proof.
  intros Hs H1 H2 Hv. unfold feasible. rewrite (ineq_iff L sm pd d Q Hnv HQ Hs v Hv H1 H2), (eq_iff L sm pd d Q Hnv HQ Hs v). unfold admissible.
  assert (K : forall js, (Forall (cbf L d v) (filter is_barrier js) /\ Forall (holds_exactly L d v) (filter is_hard js)) <->
    Forall (fun j => (is_barrier j = true -> cbf L d v j) /\ (is_hard j = true -> holds_exactly L d v j)) js).
  { intros js. rewrite !Forall_forall. split.
    - intros [A B] j Hj. split; intros E; [apply A|apply B]; apply filter_In; auto.
    - intros A. split; intros j Hj; apply filter_In in Hj; destruct Hj as [Hj E]; now apply A. }
  rewrite <- K. tauto.
Qed.
Local Opaque dot.
Lemma rows_conds G h : forall v, List.length h = List.length G -> (vle (mv G v) h <-> Forall (fun g => g v <= 0) (map (fun p => fun v => dot (fst p) v + - snd p) (combine G h))).
Proof.
  revert h. induction G as [|r G IH]; intros [|b h] v H; try discriminate; cbn; [split; constructor|]. rewrite Forall_cons_iff, <- IH by (cbn in H; lia). cbn [fst snd]. split.
  - intros X. inversion X as [|? ? ? ? X1 X2]; subst. split; [|assumption]. lra.
  - intros [X Y]. constructor; [lra|exact Y].
Qed.
Lemma eq_conds A b : forall v, List.length b = List.length A -> (mv A v = b <->
  Forall (fun g => g v <= 0) (map (fun p => fun v => dot (fst p) v + - snd p) (combine A b) ++ map (fun p => fun v => -1 * dot (fst p) v + snd p) (combine A b))).
Proof.
  intros v. rewrite Forall_app. revert b. induction A as [|r A IH]; intros [|x b] H; try discriminate; cbn; [split; [split; constructor|reflexivity]|].
  rewrite !Forall_cons_iff. cbn in H. specialize (IH b ltac:(lia)). cbn [fst snd]. split.
  - intros X. injection X as X Y. apply IH in Y. destruct Y. repeat split; try assumption; cbv beta; lra.
  - intros [[X1 Y1] [X2 Y2]]. cbv beta in X1, X2. f_equal; [lra|]. apply IH. auto.
Qed.
Lemma exists_optimal : Forall (well_shaped L nv d) (comps_of pd) -> List.length (jd_vmin pd) = nv -> List.length (jd_vmax pd) = nv ->
  (exists v, List.length v = nv /\ feasible Q v) -> exists v, optimal nv Q v.
Proof.
  intros Hs H1 H2 (v0 & L0 & F0).
  set (gs := map (fun p => fun v => dot (fst p) v + - snd p) (combine (qp_G Q) (qp_h Q)) ++
             match qp_eq Q with None => [] | Some (A, b) => map (fun p => fun v => dot (fst p) v + - snd p) (combine A b) ++ map (fun p => fun v => -1 * dot (fst p) v + snd p) (combine A b) end).
  assert (LG : List.length (qp_h Q) = List.length (qp_G Q)).
  { destruct F0 as [F _]. apply vle_length in F. rewrite mv_length in F. now symmetry. }
  assert (FG : forall v, feasible Q v <-> Forall (fun g => g v <= 0) gs).
  { intros v. unfold gs. rewrite Forall_app. unfold feasible, satisfies_ineq. rewrite rows_conds by exact LG. destruct F0 as [_ F0]. unfold satisfies_eq in *. destruct (qp_eq Q) as [[A b]|].
    - rewrite eq_conds by (rewrite <- F0; apply mv_length). reflexivity.
    - split; [intros [X _]; split; [exact X|constructor]|intros [X _]; auto]. }
  assert (CG : Forall (cont nv) gs).
  { unfold gs. assert (C1 : forall l : list (vec * R), Forall (cont nv) (map (fun p => fun v => dot (fst p) v + - snd p) l)).
    { intros l. rewrite Forall_map. apply Forall_forall. intros p _. apply cont_plus; [apply cont_dot|apply cont_const]. }
    assert (C2 : forall l : list (vec * R), Forall (cont nv) (map (fun p => fun v => -1 * dot (fst p) v + snd p) l)).
    { intros l. rewrite Forall_map. apply Forall_forall. intros p _. apply cont_plus; [apply cont_mult; [apply cont_const|apply cont_dot]|apply cont_const]. }
    apply Forall_app. split; [apply C1|]. destruct (qp_eq Q) as [[A b]|]; [|constructor]. apply Forall_app. split; [apply C1|apply C2]. }
  assert (CO : cont nv (objective Q)).
  { unfold objective. apply cont_plus; [apply cont_mult; [apply cont_const|apply cont_quad]|apply cont_dot]. }
  destruct (min_exists nv (vneg (jd_vmax pd)) (vneg (jd_vmin pd)) gs (objective Q)) as (v & (Lv & _ & _ & Fv) & Mv); try (rewrite vneg_length; assumption); try assumption.
  - exists v0. pose proof F0 as [I0 _]. rewrite (ineq_iff L sm pd d Q Hnv HQ Hs v0 L0 H1 H2) in I0. destruct I0 as (A & B & _). repeat split; auto; [|now apply FG].
    clear - B. unfold vneg, vle in *. remember (map Ropp v0) as u eqn:E. revert v0 E. induction B; intros [|z v0] E; try discriminate; cbn; constructor; cbn in E; injection E as -> ->; [lra|now apply IHB].
  - exists v. split; [exact Lv|]. split; [now apply FG|]. intros w Lw Fw. apply Mv. repeat split; auto; [| |now apply FG].
    + destruct Fw as [I0 _]. rewrite (ineq_iff L sm pd d Q Hnv HQ Hs w Lw H1 H2) in I0. destruct I0 as (_ & B & _).
      clear - B. unfold vneg, vle in *. remember (map Ropp w) as u eqn:E. revert w E. induction B; intros [|z w] E; try discriminate; cbn; constructor; cbn in E; injection E as -> ->; [lra|now apply IHB].
    + destruct Fw as [I0 _]. rewrite (ineq_iff L sm pd d Q Hnv HQ Hs w Lw H1 H2) in I0. apply I0.
Qed.

(** Standing still. *)
Lemma vle_zero_nonneg v : vnonneg v -> vle (vneg v) (vzero (List.length v)).
Proof. induction 1; [constructor|]. unfold vzero in *. cbn. constructor; [lra|exact IHForall]. Qed.
Lemma gained_nonneg j e : vnonneg (j_gain j) -> (forall x, 0 <= x -> 0 <= j_gain_fn j x) -> vnonneg e -> vnonneg (gained j e).
Proof.
  intros Hg Hf He. unfold gained, vmul, vmap2. revert e He. induction Hg as [|g gs Hg Hgs IH]; intros e He; [constructor|]. destruct He as [|x e Hx He]; cbn; [constructor|].
  constructor; [apply Rmult_le_pos; auto|]. apply IH, He.
Qed.
Lemma gained_zero j n : j_gain_fn j 0 = 0 -> List.length (j_gain j) = n -> gained j (vzero n) = vzero n.
Proof.
  intros H0 <-. unfold gained, vmul, vmap2, vzero. induction (j_gain j) as [|g gs IH]; [reflexivity|]. cbn. rewrite IH, H0. f_equal. ring.
Qed.
Lemma rest_admissible : Forall (well_shaped L nv d) (comps_of pd) -> may_rest L d pd -> admissible L d pd (vzero nv).
Proof.
  intros Hs (A & B & C). split; [apply vzero_length|]. split; [|split].
  - clear - A. unfold vle, vneg, vzero in *. revert A. generalize (jd_vmin pd) as l. induction nv as [|n IH]; intros l A; inversion A; subst; cbn; constructor; [lra|auto].
  - clear - B. unfold vle, vneg, vzero in *. revert B. generalize (jd_vmax pd) as l. induction nv as [|n IH]; intros l A; inversion A; subst; cbn; constructor; [lra|auto].
  - rewrite Forall_forall in *. intros j Hj. destruct (C j Hj) as [C1 C2]. split; intros E.
    + intros J e EJ Ee. destruct (C1 E) as (G1 & G2 & G3). destruct (Hs j Hj J e EJ Ee) as [[S1 _] S2]. rewrite mv_vzero_r, S1, <- (gained_length j e S2). apply vle_zero_nonneg. apply gained_nonneg; auto.
    + intros J e EJ Ee. destruct (C2 E) as (G1 & G2). destruct (Hs j Hj J e EJ Ee) as [[S1 _] S2]. rewrite mv_vzero_r, S1. rewrite (G2 e Ee) at 2. rewrite gained_zero by auto.
      clear. unfold vzero, vneg. induction (List.length e) as [|n IH]; [reflexivity|]. cbn. rewrite <- IH. f_equal. ring.
Qed.
End Assembled.
