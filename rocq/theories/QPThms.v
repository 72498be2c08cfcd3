(** Theorems about the assembled QP: objective, convexity, constraints. *)
From Verif Require Import Base Lin LinFacts Mjx Typing Component Problem JaxComponents LocalIK SpecQP QPFacts.
Open Scope R_scope.

Lemma bc2_same f a b : List.length a = List.length b -> bc2 f a b = Ok (vmap2 f a b).
Proof. intros H. unfold bc2. apply Nat.eqb_eq in H. now rewrite H. Qed.
Lemma vmul_vneg_l a b : vmul (vneg a) b = vneg (vmul a b).
Proof. unfold vmul, vmap2, vneg. revert b. induction a as [|x a IH]; intros [|y b]; try reflexivity. cbn. rewrite IH. f_equal. ring. Qed.
Lemma mge_eq j e : List.length (j_gain j) = List.length e -> minus_gain_error j e = Ok (vneg (gained j e)).
Proof.
  intros H. unfold minus_gain_error. rewrite bc2_same by (rewrite vneg_length, map_length; exact H).
  change (vmap2 Rmult) with vmul. now rewrite vmul_vneg_l.
Qed.
Lemma gained_length j e : List.length (j_gain j) = List.length e -> List.length (gained j e) = List.length e.
Proof. intros H. unfold gained. rewrite vmul_length, map_length; [reflexivity|]. now rewrite map_length. Qed.
Lemma mv_vneg A v : mv A (vneg v) = vneg (mv A v).
Proof. unfold mv, vneg at 2. rewrite map_map. apply map_ext. intros r. apply dot_vneg_r. Qed.
Lemma mv_vadd A u v : List.length u = List.length v -> mv A (vadd u v) = vadd (mv A u) (mv A v).
Proof. intros H. unfold mv, vadd at 2, vmap2. induction A as [|r A IH]; [reflexivity|]. cbn. rewrite IH. f_equal. now apply dot_vadd_r. Qed.
Lemma sq_vadd a b : List.length a = List.length b -> sq (vadd a b) = sq a + 2 * dot a b + sq b.
Proof. intros H. unfold sq. rewrite dot_vadd_l, !dot_vadd_r by auto. rewrite (dot_comm b a). ring. Qed.
Lemma sq_vneg a : sq (vneg a) = sq a.
Proof. unfold sq. rewrite dot_vneg_l, dot_vneg_r. ring. Qed.

(** What a weighted piece contributes. *)
Lemma weighted_ok n W J e H We c : weighted n W J e = Ok (H, We, c) ->
  List.length e = List.length J /\ Forall (fun r => List.length r = n) J /\
  is_mat n n H /\ We = mv W e /\ List.length c = n /\
  (forall u v, dot u (mv H v) = dot (mv W (mv J u)) (mv W (mv J v))) /\
  (forall v, dot c v = - dot (mv W e) (mv W (mv J v))).
Proof.
  unfold weighted. set (k := List.length J). destruct (is_matb k n J) eqn:E1; [|discriminate]. cbn [andb].
  destruct (Nat.eqb (List.length e) k) eqn:E2; [|discriminate]. cbn [andb]. destruct (is_matb (List.length W) k W) eqn:E3; [|discriminate].
  cbn [check bind]. intros [= <- <- <-]. apply is_matb_spec in E1. apply is_matb_spec in E3. apply Nat.eqb_eq in E2.
  destruct E1 as [_ EJ]. assert (MW : is_mat (List.length W) n (mm n W J)) by (eapply mm_is_mat; [reflexivity|split; [reflexivity|exact EJ]]).
  destruct MW as [MW1 MW2]. repeat split; auto.
  - unfold mm. rewrite map_length. apply tr_is_mat.
  - eapply (mm_is_mat n n). { apply tr_is_mat. } split; [reflexivity|exact MW2].
  - apply vm_length. exact MW2.
  - intros u v. rewrite gram_bilin by exact MW2. now rewrite !mv_mm by exact EJ.
  - intros v. rewrite dot_vm by exact MW2. now rewrite dot_vneg_l, mv_mm by exact EJ.
Qed.

Section Piece.
Context (L : lib) (nv : nat) (d : mjdata).
Notation cp := (cpiece L nv nv d).

Lemma cpiece_piece j k : cp j = Ok k -> piece L nv nv d j = Ok k /\ ashape nv k.
Proof.
  intros H. split; [|eapply cpiece_shape; exact H]. unfold cpiece in H. destruct (piece L nv nv d j); [|discriminate]. cbn in H.
  destruct (check _); [|discriminate]. exact H.
Qed.

Lemma quad_eye g v : List.length v = nv -> forall u, List.length u = nv -> dot u (mv (mscale g (eye nv)) v) = g * dot u v.
Proof. intros Hv u Hu. now rewrite mv_mscale, mv_eye, dot_vscale_r by exact Hv. Qed.

(** Quadratic and linear part of one component. *)
Lemma piece_cost j k : cp j = Ok k -> well_shaped L nv d j ->
  exists k0, forall v, List.length v = nv ->
    exists x, cost_of L d j v x /\ 1 / 2 * dot v (mv (ac_H k) v) + dot (ac_c k) v = x - k0.
Proof.
  intros Hk Hs. apply cpiece_piece in Hk as [Hk _]. unfold piece in Hk. destruct (j_ext j) as [W lm t|sdg t|act hard W t] eqn:E.
  - unfold process_task in Hk. destruct (jacobian L j d) as [J|] eqn:EJ; [|discriminate]. destruct (call L j d) as [e|] eqn:Ee; [|discriminate].
    cbn [bind] in Hk. destruct (Hs J e EJ Ee) as [[HJ HJ'] Hg]. rewrite mge_eq in Hk by exact Hg. cbn [bind] in Hk.
    destruct (weighted nv W J (vneg (gained j e))) as [[[H We] c]|] eqn:EW; [|discriminate]. cbn [bind] in Hk. injection Hk as <-. cbn [ac_H ac_c].
    destruct (weighted_ok _ _ _ _ _ _ _ EW) as (L1 & _ & MH & -> & Lc & QH & Qc).
    exists (1 / 2 * sq (mv W (gained j e))). intros v Hv. eexists. split; [eapply cost_task; eauto|].
    rewrite (mv_madd nv) by (auto; apply mscale_is_mat, eye_is_mat). cbn [fst snd].
    rewrite dot_vadd_r by (rewrite !mv_length, (proj1 MH); unfold mscale, eye; now rewrite !map_length, seq_length).
    rewrite quad_eye, QH, Qc by auto. rewrite mv_vneg.
    rewrite mv_vadd by (rewrite mv_length, gained_length; auto). rewrite sq_vadd by (now rewrite !mv_length). change (dot (vneg ?a) (vneg ?a)) with (sq (vneg a)). rewrite sq_vneg. unfold sq.
    rewrite dot_vneg_l, (dot_comm (mv W (gained j e)) (mv W (mv J v))). field.
  - unfold process_barrier in Hk. destruct (jacobian L j d) as [J|] eqn:EJ; [|discriminate]. cbn [bind] in Hk.
    destruct (Req_EM_T (frob2 J) 0) as [|Hf]; [discriminate|]. destruct (call L j d) as [e|]; [|discriminate]. cbn [bind] in Hk.
    destruct (bc2 Rmult (j_gain j) (map (j_gain_fn j) e)); [|discriminate]. cbn [bind] in Hk. injection Hk as <-. cbn [ac_H ac_c].
    exists 0. intros v Hv. eexists. split; [eapply cost_barrier; eauto|]. rewrite quad_eye by auto.
    unfold safe_displacement. rewrite dot_vscale_l, dot_vzero_l. unfold sq. ring.
  - destruct hard.
    + destruct (process_hard L d j) as [[A b]|]; [|discriminate]. cbn [bind] in Hk. injection Hk as <-. cbn [ac_H ac_c].
      exists 0. intros v Hv. exists 0. split; [eapply cost_hard; eauto|]. rewrite mv_mzero, dot_vzero_r, dot_vzero_l. ring.
    + unfold process_soft in Hk. destruct (jacobian L j d) as [J|] eqn:EJ; [|discriminate]. destruct (call L j d) as [e|] eqn:Ee; [|discriminate].
      cbn [bind] in Hk. destruct (Hs J e EJ Ee) as [[HJ HJ'] Hg]. rewrite mge_eq in Hk by exact Hg. cbn [bind] in Hk.
      destruct (weighted nv W J (vneg (gained j e))) as [[[H We] c]|] eqn:EW; [|discriminate]. cbn [bind] in Hk. injection Hk as <-. cbn [ac_H ac_c fst snd].
      destruct (weighted_ok _ _ _ _ _ _ _ EW) as (L1 & _ & MH & -> & Lc & QH & Qc).
      exists (1 / 2 * sq (mv W (gained j e))). intros v Hv. eexists. split; [eapply cost_soft; eauto|].
      rewrite QH, Qc, mv_vneg. rewrite mv_vadd by (rewrite mv_length, gained_length; auto). rewrite sq_vadd by (now rewrite !mv_length). unfold sq.
      rewrite dot_vneg_l, (dot_comm (mv W (gained j e)) (mv W (mv J v))). field.
Qed.

(** The Hessian piece is symmetric, and positive semidefinite for non-negative
    damping and safe-displacement gain. *)
Lemma frob2_nonneg J : 0 <= frob2 J.
Proof. unfold frob2. induction J as [|r J IH]; cbn; [lra|]. pose proof (dot_self_nonneg r). lra. Qed.
Lemma piece_sym j k : cp j = Ok k -> forall u v, List.length u = nv -> List.length v = nv ->
  dot u (mv (ac_H k) v) = dot v (mv (ac_H k) u).
Proof.
  intros Hk u v Hu Hv. apply cpiece_piece in Hk as [Hk _]. unfold piece in Hk. destruct (j_ext j) as [W lm t|sdg t|act hard W t] eqn:E.
  - unfold process_task in Hk. destruct (jacobian L j d) as [J|]; [|discriminate]. destruct (call L j d) as [e|]; [|discriminate].
    cbn [bind] in Hk. destruct (minus_gain_error j e) as [ge|]; [|discriminate]. cbn [bind] in Hk.
    destruct (weighted nv W J ge) as [[[H We] c]|] eqn:EW; [|discriminate]. cbn [bind] in Hk. injection Hk as <-. cbn [ac_H fst].
    destruct (weighted_ok _ _ _ _ _ _ _ EW) as (L1 & _ & MH & -> & Lc & QH & Qc).
    assert (Ls : forall w, List.length (mv H w) = List.length (mv (mscale (lm * dot (mv W ge) (mv W ge)) (eye nv)) w)).
    { intros w. rewrite !mv_length, (proj1 MH). unfold mscale, eye. now rewrite !map_length, seq_length. }
    rewrite !(mv_madd nv) by (auto; apply mscale_is_mat, eye_is_mat). rewrite !dot_vadd_r by apply Ls.
    rewrite !quad_eye, !QH by auto. rewrite (dot_comm u v), (dot_comm (mv W (mv J u))). reflexivity.
  - unfold process_barrier in Hk. destruct (jacobian L j d) as [J|]; [|discriminate]. cbn [bind] in Hk.
    destruct (Req_EM_T (frob2 J) 0) as [|Hf]; [discriminate|]. destruct (call L j d) as [e|]; [|discriminate]. cbn [bind] in Hk.
    destruct (bc2 _ _ _); [|discriminate]. cbn [bind] in Hk. injection Hk as <-. cbn [ac_H]. rewrite !quad_eye by auto. now rewrite dot_comm.
  - destruct hard.
    + destruct (process_hard L d j) as [[A b]|]; [|discriminate]. injection Hk as <-. cbn [ac_H]. now rewrite !mv_mzero, !dot_vzero_r.
    + unfold process_soft in Hk. destruct (jacobian L j d) as [J|]; [|discriminate]. destruct (call L j d) as [e|]; [|discriminate].
      cbn [bind] in Hk. destruct (minus_gain_error j e) as [ge|]; [|discriminate]. cbn [bind] in Hk.
      destruct (weighted nv W J ge) as [[[H We] c]|] eqn:EW; [|discriminate]. injection Hk as <-. cbn [ac_H fst].
      destruct (weighted_ok _ _ _ _ _ _ _ EW) as (L1 & _ & MH & -> & Lc & QH & Qc). rewrite !QH. apply dot_comm.
Qed.
Lemma piece_psd j k : cp j = Ok k -> nonneg_weights j -> forall v, List.length v = nv -> 0 <= dot v (mv (ac_H k) v).
Proof.
  intros Hk Hn v Hv. apply cpiece_piece in Hk as [Hk _]. unfold piece in Hk. unfold nonneg_weights in Hn. destruct (j_ext j) as [W lm t|sdg t|act hard W t] eqn:E.
  - unfold process_task in Hk. destruct (jacobian L j d) as [J|]; [|discriminate]. destruct (call L j d) as [e|]; [|discriminate].
    cbn [bind] in Hk. destruct (minus_gain_error j e) as [ge|]; [|discriminate]. cbn [bind] in Hk.
    destruct (weighted nv W J ge) as [[[H We] c]|] eqn:EW; [|discriminate]. cbn [bind] in Hk. injection Hk as <-. cbn [ac_H fst].
    destruct (weighted_ok _ _ _ _ _ _ _ EW) as (L1 & _ & MH & -> & Lc & QH & Qc).
    rewrite (mv_madd nv) by (auto; apply mscale_is_mat, eye_is_mat).
    rewrite dot_vadd_r by (rewrite !mv_length, (proj1 MH); unfold mscale, eye; now rewrite !map_length, seq_length).
    rewrite quad_eye, QH by auto. pose proof (dot_self_nonneg (mv W (mv J v))). pose proof (dot_self_nonneg (mv W ge)). pose proof (dot_self_nonneg v).
    assert (0 <= lm * dot (mv W ge) (mv W ge) * dot v v) by (apply Rmult_le_pos; [apply Rmult_le_pos|]; assumption). lra.
  - unfold process_barrier in Hk. destruct (jacobian L j d) as [J|]; [|discriminate]. cbn [bind] in Hk.
    destruct (Req_EM_T (frob2 J) 0) as [|Hf]; [discriminate|]. destruct (call L j d) as [e|]; [|discriminate]. cbn [bind] in Hk.
    destruct (bc2 _ _ _); [|discriminate]. cbn [bind] in Hk. injection Hk as <-. cbn [ac_H]. rewrite quad_eye by auto.
    apply Rmult_le_pos; [|apply dot_self_nonneg]. pose proof (frob2_nonneg J). apply Rmult_le_pos; [exact Hn|]. apply Rlt_le, Rinv_0_lt_compat. lra.
  - destruct hard.
    + destruct (process_hard L d j) as [[A b]|]; [|discriminate]. injection Hk as <-. cbn [ac_H]. rewrite !mv_mzero, !dot_vzero_r. lra.
    + unfold process_soft in Hk. destruct (jacobian L j d) as [J|]; [|discriminate]. destruct (call L j d) as [e|]; [|discriminate].
      cbn [bind] in Hk. destruct (minus_gain_error j e) as [ge|]; [|discriminate]. cbn [bind] in Hk.
      destruct (weighted nv W J ge) as [[[H We] c]|] eqn:EW; [|discriminate]. injection Hk as <-. cbn [ac_H fst].
      destruct (weighted_ok _ _ _ _ _ _ _ EW) as (L1 & _ & MH & -> & Lc & QH & Qc). rewrite QH. apply dot_self_nonneg.
Qed.
End Piece.

(** ** Sums of pieces *)
Lemma fold_madd_shape n Hs A : is_mat n n A -> Forall (is_mat n n) Hs -> is_mat n n (fold_left madd Hs A).
Proof. intros HA HH. revert A HA. induction HH as [|H Hs HH1 HH IH]; intros A HA; [exact HA|]. cbn. apply IH. now apply madd_is_mat. Qed.
Lemma fold_madd_bilin n Hs A u v : is_mat n n A -> Forall (is_mat n n) Hs ->
  dot u (mv (fold_left madd Hs A) v) = dot u (mv A v) + vsum (map (fun H => dot u (mv H v)) Hs).
Proof.
  intros HA HH. revert A HA. induction HH as [|H Hs HH1 HH IH]; intros A HA; cbn [fold_left map vsum]; [ring|].
  rewrite IH by now apply madd_is_mat. rewrite (mv_madd n), dot_vadd_r by (auto; rewrite !mv_length, (proj1 HA), (proj1 HH1); reflexivity). ring.
Qed.
Lemma fold_vadd_length n cs c : List.length c = n -> Forall (fun x => List.length x = n) cs -> List.length (fold_left vadd cs c) = n.
Proof. intros Hc HH. revert c Hc. induction HH as [|x cs Hx HH IH]; intros c Hc; [exact Hc|]. cbn. apply IH. rewrite vadd_length; lia. Qed.
Lemma fold_vadd_dot n cs c v : List.length c = n -> Forall (fun x => List.length x = n) cs ->
  dot (fold_left vadd cs c) v = dot c v + vsum (map (fun x => dot x v) cs).
Proof.
  intros Hc HH. revert c Hc. induction HH as [|x cs Hx HH IH]; intros c Hc; cbn [fold_left map vsum]; [ring|].
  rewrite IH by (rewrite vadd_length; lia). rewrite dot_vadd_l by lia. ring.
Qed.

Section Assembled.
Context (L : lib) (sm : mjmodel) (pd : jdata) (d : mjdata) (Q : qp).
Context (Hnv : m_nv sm = m_nv (jd_model pd)) (HQ : assemble L sm pd d = Ok Q).
Notation nv := (m_nv (jd_model pd)).

Lemma pieces_shape ks : Forall2 (fun j k => cpiece L nv nv d j = Ok k) (comps_of pd) ks ->
  Forall (is_mat nv nv) (map ac_H ks) /\ Forall (fun x => List.length x = nv) (map ac_c ks).
Proof.
  intros F. rewrite !Forall_map. split; induction F as [|j k js ks H F IH]; constructor; auto; apply (cpiece_shape _ _ _ _ _ _ H).
Qed.

Lemma objective_is_cost : Forall (well_shaped L nv d) (comps_of pd) ->
  exists k0, forall v, List.length v = nv ->
    exists x, total_cost L d (comps_of pd) v x /\ 1 / 2 * dot v (mv (qp_P Q) v) + dot (qp_c Q) v = x - k0.
Proof.
  intros Hs. destruct (assemble_pieces _ _ _ _ _ HQ) as (ks & F & EP & Ec & _). cbv zeta in *. rewrite Hnv in *.
  destruct (pieces_shape ks F) as [SH Sc].
  assert (G : exists k0, forall v, List.length v = nv -> exists xs, Forall2 (fun j y => cost_of L d j v y) (comps_of pd) xs /\
     1 / 2 * vsum (map (fun H => dot v (mv H v)) (map ac_H ks)) + vsum (map (fun x => dot x v) (map ac_c ks)) = vsum xs - k0).
  { clear EP Ec SH Sc HQ. revert Hs. induction F as [|j k js ks H F IH]; intros Hs.
    - exists 0. intros v Hv. exists []. split; [constructor|cbn; field].
    - inversion Hs; subst. destruct (IH H3) as [k1 IH1]. destruct (piece_cost L nv d j k H H2) as [k2 P2]. exists (k2 + k1). intros v Hv.
      destruct (IH1 v Hv) as (xs & X1 & X2). destruct (P2 v Hv) as (x & Y1 & Y2). exists (x :: xs). split; [now constructor|].
      cbn [map vsum]. lra. }
  destruct G as [k0 G]. exists k0. intros v Hv. destruct (G v Hv) as (xs & X1 & X2). exists (vsum xs). split; [exists xs; auto|].
  rewrite EP, Ec. rewrite (fold_madd_bilin nv) by (auto using mzero_is_mat). rewrite (fold_vadd_dot nv) by (auto using vzero_length).
  rewrite mv_mzero, dot_vzero_r, dot_vzero_l. lra.
Qed.

Lemma hessian_shape : is_mat nv nv (qp_P Q) /\ List.length (qp_c Q) = nv.
Proof.
  destruct (assemble_pieces _ _ _ _ _ HQ) as (ks & F & EP & Ec & _). cbv zeta in *. rewrite Hnv in *. destruct (pieces_shape ks F) as [SH Sc].
  rewrite EP, Ec. split; [apply fold_madd_shape; auto using mzero_is_mat|apply fold_vadd_length; auto using vzero_length].
Qed.
Lemma hessian_sym u v : List.length u = nv -> List.length v = nv -> dot u (mv (qp_P Q) v) = dot v (mv (qp_P Q) u).
Proof.
  intros Hu Hv. destruct (assemble_pieces _ _ _ _ _ HQ) as (ks & F & EP & _). cbv zeta in *. rewrite Hnv in *. destruct (pieces_shape ks F) as [SH Sc].
  rewrite EP, !(fold_madd_bilin nv) by (auto using mzero_is_mat). rewrite !mv_mzero, !dot_vzero_r. f_equal. clear EP SH Sc HQ.
  induction F as [|j k js ks H F IH]; [reflexivity|]. cbn [map vsum]. rewrite IH. f_equal. eapply piece_sym; eauto.
Qed.
Lemma hessian_psd v : Forall nonneg_weights (comps_of pd) -> List.length v = nv -> 0 <= dot v (mv (qp_P Q) v).
Proof.
  intros Hn Hv. destruct (assemble_pieces _ _ _ _ _ HQ) as (ks & F & EP & _). cbv zeta in *. rewrite Hnv in *. destruct (pieces_shape ks F) as [SH Sc].
  rewrite EP, (fold_madd_bilin nv) by (auto using mzero_is_mat). rewrite mv_mzero, dot_vzero_r. rewrite Rplus_0_l. clear EP SH Sc HQ.
  revert Hn. induction F as [|j k js ks H F IH]; intros Hn; cbn [map vsum]; [lra|]. inversion Hn; subst.
  pose proof (piece_psd _ _ _ _ _ H H2 v Hv). specialize (IH H3). lra.
Qed.
End Assembled.

Lemma sym_entries n P : is_mat n n P -> (forall u v, List.length u = n -> List.length v = n -> dot u (mv P v) = dot v (mv P u)) ->
  forall i k, (i < n)%nat -> (k < n)%nat -> nth k (nth i P []) 0 = nth i (nth k P []) 0.
Proof.
  intros [H1 H2] Hs i k Hi Hk.
  assert (E : forall a b, (a < n)%nat -> (b < n)%nat -> dot (unit_row n a) (mv P (unit_row n b)) = nth b (nth a P []) 0).
  { intros a b Ha Hb. rewrite dot_unit_row by (auto; rewrite mv_length; exact H1). unfold mv.
    rewrite (nth_indep (map (fun r => dot r (unit_row n b)) P) 0 (dot [] (unit_row n b))) by (rewrite map_length; exact (eq_ind_r (fun z => (a < z)%nat) Ha H1)).
    rewrite (map_nth (fun r => dot r (unit_row n b))). rewrite dot_comm. apply dot_unit_row; [exact Hb|].
    rewrite Forall_forall in H2. apply H2, nth_In. exact (eq_ind_r (fun z => (a < z)%nat) Ha H1). }
  rewrite <- E, <- (E k i) by assumption. apply Hs; apply unit_row_length.
Qed.
