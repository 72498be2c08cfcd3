(** Constraint rows of the assembled QP. *)
From Verif Require Import Base Lin LinFacts Mjx Typing Component Problem JaxComponents LocalIK SpecQP QPFacts QPThms.
From Coq Require Import Permutation.
Open Scope R_scope.

Section Rows.
Context (L : lib) (nv : nat) (d : mjdata).
Notation cp := (cpiece L nv nv d).

Lemma piece_rows j k : cp j = Ok k -> well_shaped L nv d j ->
  if is_barrier j then exists J e, jacobian L j d = Ok J /\ call L j d = Ok e /\ ac_G k = [mneg J] /\ ac_h k = [gained j e] /\ ac_A k = [] /\ ac_b k = []
  else if is_hard j then exists J e, jacobian L j d = Ok J /\ call L j d = Ok e /\ ac_A k = [J] /\ ac_b k = [vneg (gained j e)] /\ ac_G k = [] /\ ac_h k = []
  else ac_A k = [] /\ ac_b k = [] /\ ac_G k = [] /\ ac_h k = [].
Proof.
  intros Hk Hs. apply cpiece_piece in Hk as [Hk _]. unfold piece in Hk. unfold is_barrier, is_hard. destruct (j_ext j) as [W lm t|sdg t|act hard W t] eqn:E.
  - destruct (process_task L nv d j W lm); [|discriminate]. injection Hk as <-. auto.
  - unfold process_barrier in Hk. destruct (jacobian L j d) as [J|] eqn:EJ; [|discriminate]. cbn [bind] in Hk.
    destruct (Req_EM_T (frob2 J) 0) as [|Hf]; [discriminate|]. destruct (call L j d) as [e|] eqn:Ee; [|discriminate]. cbn [bind] in Hk.
    destruct (Hs J e EJ Ee) as [HJ Hg]. rewrite bc2_same in Hk by (rewrite map_length; exact Hg). cbn [bind] in Hk. injection Hk as <-.
    exists J, e. auto 10.
  - destruct hard.
    + unfold process_hard in Hk. destruct (jacobian L j d) as [J|] eqn:EJ; [|discriminate]. destruct (call L j d) as [e|] eqn:Ee; [|discriminate]. cbn [bind] in Hk.
      destruct (Hs J e EJ Ee) as [HJ Hg]. rewrite mge_eq in Hk by exact Hg. cbn [bind] in Hk. injection Hk as <-. exists J, e. auto 10.
    + destruct (process_soft L nv d j W); [|discriminate]. injection Hk as <-. auto.
Qed.

Lemma rows_blocks js ks : Forall2 (fun j k => cp j = Ok k) js ks -> Forall (well_shaped L nv d) js ->
  (exists Js es, data_of L d (filter is_barrier js) Js es /\ flat_map ac_G ks = map mneg Js /\ flat_map ac_h ks = map (fun p => gained (fst p) (snd p)) (combine (filter is_barrier js) es)) /\
  (exists Js es, data_of L d (filter is_hard js) Js es /\ flat_map ac_A ks = Js /\ flat_map ac_b ks = map (fun p => vneg (gained (fst p) (snd p))) (combine (filter is_hard js) es)).
Proof.
  intros F Hs. induction F as [|j k js ks H F IH].
  { split; exists [], []; repeat split; constructor. }
  inversion Hs as [|? ? W1 W2]; subst. destruct (IH W2) as [(Js & es & [D1 D2] & G1 & G2) (Js' & es' & [D1' D2'] & A1 & A2)].
  pose proof (piece_rows j k H W1) as P. cbn [flat_map filter].
  assert (NB : is_barrier j = true -> is_hard j = false) by (unfold is_barrier, is_hard; destruct (j_ext j); congruence).
  destruct (is_barrier j) eqn:EB.
  - rewrite (NB eq_refl). destruct P as (J & e & P1 & P2 & -> & -> & -> & ->). split.
    + exists (J :: Js), (e :: es). cbn. rewrite G1, G2. repeat split; try constructor; auto.
    + exists Js', es'. cbn. rewrite A1, A2. repeat split; auto.
  - destruct (is_hard j) eqn:EH.
    + destruct P as (J & e & P1 & P2 & -> & -> & -> & ->). split.
      * exists Js, es. cbn. rewrite G1, G2. repeat split; auto.
      * exists (J :: Js'), (e :: es'). cbn. rewrite A1, A2. repeat split; try constructor; auto.
    + destruct P as (-> & -> & -> & ->). split; [exists Js, es|exists Js', es']; cbn; repeat split; auto.
Qed.
End Rows.

(** ** Vector order *)
Lemma vle_app a b c e : List.length a = List.length c -> vle (a ++ b) (c ++ e) <-> vle a c /\ vle b e.
Proof.
  intros H. split; [|intros [H1 H2]; now apply Forall2_app]. intros F. now apply Forall2_app_inv_len in F.
Qed.
Lemma vle_neg a b : vle (vneg a) (vneg b) <-> vle b a.
Proof.
  unfold vle, vneg. split.
  - revert b. induction a as [|x a IH]; intros [|y b] H; inversion H; subst; constructor; [lra|auto].
  - revert b. induction a as [|x a IH]; intros [|y b] H; inversion H; subst; constructor; [lra|auto].
Qed.
Lemma vneg_vneg a : vneg (vneg a) = a.
Proof. unfold vneg. rewrite map_map, <- (map_id a) at 1. rewrite map_id. rewrite <- (map_id a) at 2. apply map_ext. intros; lra. Qed.
Lemma mv_mneg A v : mv (mneg A) v = vneg (mv A v).
Proof. unfold mv, mneg, vneg at 2. rewrite !map_map. apply map_ext. intros r. apply dot_vneg_l. Qed.
Lemma mv_cat A B v : mv (A ++ B) v = mv A v ++ mv B v.
Proof. apply map_app. Qed.

Lemma app_inv_len {A} (a b c e : list A) : a ++ b = c ++ e -> List.length a = List.length c -> a = c /\ b = e.
Proof. revert c. induction a as [|x a IH]; intros [|y c] H HL; try discriminate; [auto|]. injection H as -> H. injection HL as HL. destruct (IH c H HL) as [-> ->]. auto. Qed.

Lemma barrier_rows_iff L nv d v js Js es : data_of L d js Js es -> Forall (well_shaped L nv d) js ->
  vle (mv (List.concat (map mneg Js)) v) (List.concat (map (fun p => gained (fst p) (snd p)) (combine js es))) <-> Forall (cbf L d v) js.
Proof.
  intros [D1 D2] Hs. revert es D2 Hs. induction D1 as [|j J js Js HJ D1 IH]; intros es D2 Hs; inversion D2 as [|? e ? es' He D2']; subst.
  { split; constructor. }
  inversion Hs as [|? ? W1 W2]; subst. destruct (W1 J e HJ He) as [[S1 S2] S3]. cbn [map combine List.concat fst snd]. rewrite mv_cat.
  rewrite vle_app by (rewrite mv_mneg, vneg_length, mv_length, gained_length; auto). rewrite (IH es' D2' W2). clear IH.
  assert (E : vle (mv (mneg J) v) (gained j e) <-> cbf L d v j).
  { rewrite mv_mneg. unfold cbf. split.
    - intros H J' e' HJ' He'. rewrite HJ in HJ'. rewrite He in He'. injection HJ' as <-. injection He' as <-. rewrite <- (vneg_vneg (mv J v)). apply vle_neg. exact H.
    - intros H. specialize (H J e HJ He). apply vle_neg in H. rewrite vneg_vneg in H. exact H. }
  rewrite E. split; [intros [A B]; now constructor|intros H; inversion H; auto].
Qed.
Lemma hard_rows_iff L nv d v js Js es : data_of L d js Js es -> Forall (well_shaped L nv d) js ->
  mv (List.concat Js) v = List.concat (map (fun p => vneg (gained (fst p) (snd p))) (combine js es)) <-> Forall (holds_exactly L d v) js.
Proof.
  intros [D1 D2] Hs. revert es D2 Hs. induction D1 as [|j J js Js HJ D1 IH]; intros es D2 Hs; inversion D2 as [|? e ? es' He D2']; subst.
  { split; constructor. }
  inversion Hs as [|? ? W1 W2]; subst. destruct (W1 J e HJ He) as [[S1 S2] S3]. cbn [map combine List.concat fst snd]. rewrite mv_cat.
  assert (E : mv J v = vneg (gained j e) <-> holds_exactly L d v j).
  { unfold holds_exactly. split; [|intros H; now apply H].
    intros H J' e' HJ' He'. rewrite HJ in HJ'. rewrite He in He'. injection HJ' as <-. injection He' as <-. exact H. }
  split.
  - intros H. apply app_inv_len in H; [|rewrite mv_length, vneg_length, gained_length; auto]. destruct H as [H1 H2]. constructor; [now apply E|now apply (IH es')].
  - intros H. inversion H; subst. f_equal; [now apply E|now apply IH].
Qed.

Section Assembled.
Context (L : lib) (sm : mjmodel) (pd : jdata) (d : mjdata) (Q : qp).
Context (Hnv : m_nv sm = m_nv (jd_model pd)) (HQ : assemble L sm pd d = Ok Q).
Context (Hs : Forall (well_shaped L (m_nv (jd_model pd)) d) (comps_of pd)).
Notation nv := (m_nv (jd_model pd)).

Lemma ineq_blocks : exists Js es, data_of L d (filter is_barrier (comps_of pd)) Js es /\
  qp_G Q = eye nv ++ mneg (eye nv) ++ List.concat (map mneg Js) /\
  qp_h Q = vneg (jd_vmin pd) ++ jd_vmax pd ++ List.concat (map (fun p => gained (fst p) (snd p)) (combine (filter is_barrier (comps_of pd)) es)).
Proof.
  destruct (assemble_pieces _ _ _ _ _ HQ) as (ks & F & _ & _ & _ & EG & Eh & _). cbv zeta in *. rewrite Hnv in *.
  destruct (rows_blocks L nv d _ ks F Hs) as [(Js & es & D & G1 & G2) _]. exists Js, es. split; [exact D|].
  rewrite EG, Eh, G1, G2. split; reflexivity.
Qed.
Lemma eq_blocks : exists Js es, data_of L d (filter is_hard (comps_of pd)) Js es /\
  qp_eq Q = match filter is_hard (comps_of pd) with [] => None | _ =>
    Some (List.concat Js, List.concat (map (fun p => vneg (gained (fst p) (snd p))) (combine (filter is_hard (comps_of pd)) es))) end.
Proof.
  destruct (assemble_pieces _ _ _ _ _ HQ) as (ks & F & _ & _ & EE & _). cbv zeta in *. rewrite Hnv in *.
  destruct (rows_blocks L nv d _ ks F Hs) as [_ (Js & es & D & G1 & G2)]. exists Js, es. split; [exact D|].
  rewrite EE, G1, G2. destruct D as [D1 _]. destruct D1; reflexivity.
Qed.

Lemma ineq_iff v : List.length v = nv -> List.length (jd_vmin pd) = nv -> List.length (jd_vmax pd) = nv ->
  satisfies_ineq (qp_G Q) (qp_h Q) v <->
  vle v (vneg (jd_vmin pd)) /\ vle (vneg v) (jd_vmax pd) /\ Forall (cbf L d v) (filter is_barrier (comps_of pd)).
Proof.
  intros Hv H1 H2. destruct ineq_blocks as (Js & es & D & EG & Eh). unfold satisfies_ineq. rewrite EG, Eh, !mv_cat, mv_mneg, mv_eye by exact Hv.
  rewrite !vle_app by (rewrite ?vneg_length; lia). rewrite (barrier_rows_iff L nv d v _ _ _ D); [tauto|].
  apply Forall_forall. intros j Hj. rewrite Forall_forall in Hs. apply Hs. apply filter_In in Hj. tauto.
Qed.
Lemma eq_iff v : satisfies_eq (qp_eq Q) v <-> Forall (holds_exactly L d v) (filter is_hard (comps_of pd)).
Proof.
  destruct eq_blocks as (Js & es & D & ->). 
  assert (W : Forall (well_shaped L nv d) (filter is_hard (comps_of pd))).
  { apply Forall_forall. intros j Hj. rewrite Forall_forall in Hs. apply Hs. apply filter_In in Hj. tauto. }
  pose proof (hard_rows_iff L nv d v _ _ _ D W) as E. destruct (filter is_hard (comps_of pd)) eqn:EF; [|exact E].
  split; [constructor|exact (fun _ => I)].
Qed.
Lemma eq_none : qp_eq Q = None <-> filter is_hard (comps_of pd) = [].
Proof. destruct eq_blocks as (Js & es & D & ->). destruct (filter is_hard (comps_of pd)); split; congruence. Qed.
End Assembled.

(** ** Order of components *)
Lemma fold_madd_perm n Hs Hs' : Permutation Hs Hs' -> Forall (is_mat n n) Hs -> forall A, is_mat n n A -> fold_left madd Hs A = fold_left madd Hs' A.
Proof.
  induction 1 as [|x l l' P IH|x y l|l l' l'' P IH P' IH']; intros F A HA; [reflexivity| | |].
  - inversion F; subst. cbn. apply IH; [assumption|]. now apply madd_is_mat.
  - inversion F as [|? ? F1 F2]; subst. inversion F2; subst. cbn. f_equal. rewrite !(madd_assoc n n) by assumption. f_equal. apply madd_comm.
  - rewrite (IH F A HA). apply IH'; [|exact HA]. eapply Permutation_Forall; eauto.
Qed.
Lemma fold_vadd_perm n cs cs' : Permutation cs cs' -> Forall (fun x => List.length x = n) cs -> forall c, List.length c = n -> fold_left vadd cs c = fold_left vadd cs' c.
Proof.
  induction 1 as [|x l l' P IH|x y l|l l' l'' P IH P' IH']; intros F A HA; [reflexivity| | |].
  - inversion F; subst. cbn. apply IH; [assumption|]. rewrite vadd_length; lia.
  - inversion F as [|? ? F1 F2]; subst. inversion F2; subst. cbn. f_equal. rewrite !vadd_assoc by congruence. f_equal. apply vadd_comm.
  - rewrite (IH F A HA). apply IH'; [|exact HA]. eapply Permutation_Forall; eauto.
Qed.
Lemma Forall2_perm {A B} (R : A -> B -> Prop) l l' ks : Permutation l l' -> Forall2 R l ks -> exists ks', Permutation ks ks' /\ Forall2 R l' ks'.
Proof.
  intros P. revert ks. induction P as [|x l l' P IH|x y l|l l' l'' P IH P' IH']; intros ks F.
  - inversion F; subst. exists []. split; constructor.
  - inversion F; subst. destruct (IH _ H3) as (ks' & Q1 & Q2). exists (y :: ks'). split; now constructor.
  - inversion F as [|? a ? ? R1 F1]; subst. inversion F1 as [|? b ? ? R2 F2]; subst. exists (b :: a :: l'0). split; [constructor|]. repeat constructor; assumption.
  - destruct (IH _ F) as (k1 & A1 & A2). destruct (IH' _ A2) as (k2 & B1 & B2). exists k2. split; [now transitivity k1|assumption].
Qed.
Lemma filter_perm {A} (f : A -> bool) l l' : Permutation l l' -> Permutation (filter f l) (filter f l').
Proof.
  induction 1 as [|x l l' P IH|x y l|l l' l'' P IH P' IH']; cbn; [constructor| | |].
  - destruct (f x); [now constructor|exact IH].
  - destruct (f x), (f y); try apply Permutation_refl. apply perm_swap.
  - now transitivity (filter f l').
Qed.
Lemma combine_app {A B} (a c : list A) (b e : list B) : List.length a = List.length b -> combine (a ++ c) (b ++ e) = combine a b ++ combine c e.
Proof. revert b. induction a as [|x a IH]; intros [|y b] H; try discriminate; [reflexivity|]. cbn. f_equal. apply IH. now injection H. Qed.

Lemma piece_ineq_rows L nv d ks : forall js, Forall2 (fun j k => cpiece L nv nv d j = Ok k) js ks -> Forall (well_shaped L nv d) js ->
  row_pairs (List.concat (flat_map ac_G ks)) (List.concat (flat_map ac_h ks)) = flat_map (fun k => row_pairs (List.concat (ac_G k)) (List.concat (ac_h k))) ks /\
  row_pairs (List.concat (flat_map ac_A ks)) (List.concat (flat_map ac_b ks)) = flat_map (fun k => row_pairs (List.concat (ac_A k)) (List.concat (ac_b k))) ks.
Proof.
  induction ks as [|k ks IH]; intros js F Hs; inversion F as [|j ? js' ? Hk F']; subst; [split; reflexivity|].
  inversion Hs as [|? ? W1 W2]; subst. destruct (IH js' F' W2) as [I1 I2]. cbn [flat_map]. rewrite !concat_app. unfold row_pairs in *.
  pose proof (piece_rows L nv d j k Hk W1) as P.
  assert (LL : List.length (List.concat (ac_G k)) = List.length (List.concat (ac_h k)) /\ List.length (List.concat (ac_A k)) = List.length (List.concat (ac_b k))).
  { destruct (is_barrier j); [|destruct (is_hard j)].
    - destruct P as (J & e & P1 & P2 & -> & -> & -> & ->). destruct (W1 J e P1 P2) as [[S1 S2] S3]. cbn. rewrite !app_nil_r. split; [|reflexivity].
      unfold mneg. rewrite map_length, gained_length; auto.
    - destruct P as (J & e & P1 & P2 & -> & -> & -> & ->). destruct (W1 J e P1 P2) as [[S1 S2] S3]. cbn. rewrite !app_nil_r. split; [reflexivity|].
      rewrite vneg_length, gained_length; auto.
    - destruct P as (-> & -> & -> & ->). split; reflexivity. }
  destruct LL as [L1 L2]. rewrite !combine_app by assumption. now rewrite I1, I2.
Qed.

Lemma assemble_perm L sm pd pd' d Q :
  m_nv sm = m_nv (jd_model pd) -> jd_model pd' = jd_model pd -> jd_vmin pd' = jd_vmin pd -> jd_vmax pd' = jd_vmax pd ->
  List.length (jd_vmin pd) = m_nv (jd_model pd) -> List.length (jd_vmax pd) = m_nv (jd_model pd) ->
  Permutation (comps_of pd) (comps_of pd') -> Forall (well_shaped L (m_nv (jd_model pd)) d) (comps_of pd) ->
  assemble L sm pd d = Ok Q -> exists Q', assemble L sm pd' d = Ok Q' /\ qp_P Q' = qp_P Q /\ qp_c Q' = qp_c Q /\
    Permutation (row_pairs (qp_G Q) (qp_h Q)) (row_pairs (qp_G Q') (qp_h Q')) /\ Permutation (eq_rows (qp_eq Q)) (eq_rows (qp_eq Q')).
Proof.
  intros Hnv Em E1 E2 L1 L2 HP Hs HQ. destruct (assemble_pieces _ _ _ _ _ HQ) as (ks & F & EP & Ec & EE & EG & Eh & SA & SG). cbv zeta in *.
  destruct (Forall2_perm _ _ _ _ HP F) as (ks' & KP & F').
  assert (HQ' : exists Q', assemble L sm pd' d = Ok Q').
  { apply (assemble_ok L sm pd' d ks'); rewrite ?Em; [exact F'| |].
    - eapply Permutation_Forall; [|exact SA]. now apply Permutation_flat_map.
    - eapply Permutation_Forall; [|exact SG]. now apply Permutation_flat_map. }
  destruct HQ' as [Q' HQ']. exists Q'. split; [exact HQ'|].
  destruct (assemble_pieces _ _ _ _ _ HQ') as (ks2 & F2 & EP' & Ec' & EE' & EG' & Eh' & _). cbv zeta in *. rewrite Em in *.
  assert (ks2 = ks').
  { clear -F' F2. revert ks2 F2. induction F' as [|j k js ks H F IH]; intros ks2 F2; inversion F2; subst; [reflexivity|]. f_equal; [congruence|auto]. }
  subst ks2. rewrite Hnv in *. destruct (pieces_shape L pd d ks F) as [SH Sc].
  assert (Hs' : Forall (well_shaped L (m_nv (jd_model pd)) d) (comps_of pd')) by (eapply Permutation_Forall; eauto).
  split. { rewrite EP, EP'. symmetry. apply (fold_madd_perm (m_nv (jd_model pd))); [now apply Permutation_map|exact SH|apply mzero_is_mat]. }
  split. { rewrite Ec, Ec'. symmetry. apply (fold_vadd_perm (m_nv (jd_model pd))); [now apply Permutation_map|exact Sc|apply vzero_length]. }
  destruct (piece_ineq_rows L _ d ks _ F Hs) as [R1 R2]. destruct (piece_ineq_rows L _ d ks' _ F' Hs') as [R1' R2'].
  split.
  - rewrite EG, Eh, EG', Eh', E1, E2. rewrite !concat_app. unfold row_pairs in *.
    rewrite !combine_app; [|cbn [List.concat]; rewrite !app_length; unfold mneg; rewrite ?map_length, ?vneg_length; unfold eye; rewrite ?map_length, ?seq_length; cbn; lia ..].
    apply Permutation_app_head. rewrite R1, R1'. now apply Permutation_flat_map.
  - assert (X : forall e As bs, e = match As with [] => None | _ => Some (List.concat As, List.concat bs) end -> As = [] -> eq_rows e = row_pairs (List.concat As) (List.concat bs)).
    { intros e As bs -> ->. reflexivity. }
    assert (Y : forall e As bs, e = match As with [] => None | _ => Some (List.concat As, List.concat bs) end -> eq_rows e = row_pairs (List.concat As) (List.concat bs)).
    { intros e [|A As] bs ->; reflexivity. }
    rewrite (Y _ _ _ EE), (Y _ _ _ EE'), R2, R2'. now apply Permutation_flat_map.
Qed.
