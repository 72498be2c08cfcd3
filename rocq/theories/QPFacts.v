(** The assembled QP as a sum of per-component pieces. *)
From Verif Require Import Base Lin LinFacts Mjx Typing Component Problem JaxComponents LocalIK SpecQP.
Open Scope R_scope.

(** ** Sums of vectors and matrices *)
Lemma vadd_comm a b : vadd a b = vadd b a.
Proof.
  unfold vadd, vmap2. revert b. induction a as [|x a IH]; intros [|y b]; try reflexivity. cbn. rewrite IH. f_equal. ring.
Qed.
Lemma vadd_assoc a b c : List.length a = List.length b -> List.length b = List.length c -> vadd (vadd a b) c = vadd a (vadd b c).
Proof.
  unfold vadd, vmap2. revert b c. induction a as [|x a IH]; intros [|y b] [|z c] H1 H2; try reflexivity; try discriminate.
  cbn in *. f_equal; [ring|]. apply IH; lia.
Qed.
Lemma vadd_zero_r n a : List.length a = n -> vadd a (vzero n) = a.
Proof. revert n. induction a as [|x a IH]; intros [|n] H; try discriminate; [reflexivity|]. cbn in *. f_equal; [ring|]. apply IH. lia. Qed.
Lemma vadd_zero_l n a : List.length a = n -> vadd (vzero n) a = a.
Proof. intros. rewrite vadd_comm. now apply vadd_zero_r. Qed.
Lemma madd_comm A B : madd A B = madd B A.
Proof.
  unfold madd. revert B. induction A as [|x A IH]; intros [|y B]; try reflexivity. cbn. rewrite IH. f_equal. apply vadd_comm.
Qed.
Lemma madd_assoc r c A B C : is_mat r c A -> is_mat r c B -> is_mat r c C -> madd (madd A B) C = madd A (madd B C).
Proof.
  unfold madd. intros [HA1 HA] [HB1 HB] [HC1 HC]. assert (H1 : List.length A = List.length B) by lia. assert (H2 : List.length B = List.length C) by lia.
  clear HA1 HB1 HC1. revert B C HB HC H1 H2. induction HA as [|x A Hx HA IH]; intros [|y B] [|z C] HB HC H1 H2; try reflexivity; try discriminate.
  inversion HB; inversion HC; subst. cbn in *. f_equal; [apply vadd_assoc; lia|]. apply IH; auto; lia.
Qed.
Lemma madd_zeros n A : Forall (fun r => List.length r = n) A -> madd A (repeat (vzero n) (List.length A)) = A.
Proof.
  induction 1 as [|x A Hx HA IH]; [reflexivity|]. cbn. f_equal; [apply vadd_zero_r; exact Hx|exact IH].
Qed.
Lemma madd_zero_r n A : is_mat n n A -> madd A (mzero n n) = A.
Proof. intros [H1 H2]. unfold mzero. pattern n at 2. rewrite <- H1. now apply madd_zeros. Qed.

(** ** Pieces *)
Definition aplus (a b : acc) : acc :=
  mkAcc (madd (ac_H a) (ac_H b)) (vadd (ac_c a) (ac_c b)) (ac_A a ++ ac_A b) (ac_b a ++ ac_b b) (ac_G a ++ ac_G b) (ac_h a ++ ac_h b).
Definition ashape (n : nat) (a : acc) : Prop := is_mat n n (ac_H a) /\ List.length (ac_c a) = n.
Definition ashapeb (n : nat) (a : acc) : bool := is_matb n n (ac_H a) && Nat.eqb n (List.length (ac_c a)).
Lemma ashapeb_spec n a : ashapeb n a = true <-> ashape n a.
Proof. unfold ashapeb, ashape. rewrite andb_true_iff, is_matb_spec, Nat.eqb_eq. intuition congruence. Qed.

Definition piece (L : lib) (n nv : nat) (d : mjdata) (j : jaxc) : res acc :=
  match j_ext j with
  | JTask W lm _ => do r <- process_task L nv d j W lm; Ok (mkAcc (fst r) (snd r) [] [] [] [])
  | JBarrier sdg _ => do r <- process_barrier L nv d j sdg; let '(H, c, G, h) := r in Ok (mkAcc H c [] [] [G] [h])
  | JConstraint _ hard W _ =>
      if hard then do r <- process_hard L d j; Ok (mkAcc (mzero n n) (vzero n) [fst r] [snd r] [] [])
      else do r <- process_soft L nv d j W; Ok (mkAcc (fst r) (snd r) [] [] [] [])
  end.
Definition cpiece L n nv d j : res acc := do k <- piece L n nv d j; do _ <- check (ashapeb n k); Ok k.

Lemma add_obj_eq n a H c : ashape n a -> forall As bs Gs hs,
  add_obj n a H c = (do _ <- check (ashapeb n (mkAcc H c As bs Gs hs)); Ok (mkAcc (madd (ac_H a) H) (vadd (ac_c a) c) (ac_A a) (ac_b a) (ac_G a) (ac_h a))).
Proof.
  intros [S1 S2] As bs Gs hs. unfold add_obj, add_mat, add_vec, ashapeb. cbn [ac_H ac_c].
  apply is_matb_spec in S1. rewrite S1, S2. cbn [andb]. destruct (is_matb n n H); [|reflexivity]. cbn [check bind andb].
  destruct (Nat.eqb n (List.length c)); reflexivity.
Qed.
Lemma add_component_piece L n nv d a j : ashape n a ->
  add_component_qp L n nv d a j = (do k <- cpiece L n nv d j; Ok (aplus a k)).
Proof.
  intros S. unfold add_component_qp, cpiece, piece. destruct (j_ext j) as [W lm k|sdg k|act hard W k].
  - destruct (process_task L nv d j W lm) as [[H c]|]; [|reflexivity]. cbn [bind fst snd].
    rewrite (add_obj_eq n a H c S [] [] [] []). destruct (check _); [|reflexivity]. cbn [bind]. unfold aplus. cbn. now rewrite !app_nil_r.
  - destruct (process_barrier L nv d j sdg) as [[[[H c] G] h]|]; [|reflexivity]. cbn [bind].
    rewrite (add_obj_eq n a H c S [] [] [G] [h]). destruct (check _); [|reflexivity]. cbn [bind]. unfold aplus. cbn. now rewrite !app_nil_r.
  - destruct hard.
    + destruct (process_hard L d j) as [[A b]|]; [|reflexivity]. cbn [bind fst snd].
      replace (ashapeb n _) with true. 2:{ symmetry. apply ashapeb_spec. split; [apply mzero_is_mat|apply vzero_length]. }
      cbn [check bind]. unfold aplus. cbn. destruct S as [S1 S2]. rewrite madd_zero_r by exact S1. rewrite (vadd_zero_r n) by exact S2. now rewrite !app_nil_r.
    + destruct (process_soft L nv d j W) as [[H c]|]; [|reflexivity]. cbn [bind fst snd].
      rewrite (add_obj_eq n a H c S [] [] [] []). destruct (check _); [|reflexivity]. cbn [bind]. unfold aplus. cbn. now rewrite !app_nil_r.
Qed.
Lemma aplus_shape n a b : ashape n a -> ashape n b -> ashape n (aplus a b).
Proof. intros [A1 A2] [B1 B2]. split; [now apply madd_is_mat|]. cbn. rewrite vadd_length; lia. Qed.
Lemma cpiece_shape L n nv d j k : cpiece L n nv d j = Ok k -> ashape n k.
Proof.
  unfold cpiece. destruct (piece L n nv d j) as [k'|]; [|discriminate]. cbn. destruct (ashapeb n k') eqn:E; [|discriminate]. cbn.
  intros [= <-]. now apply ashapeb_spec.
Qed.
Lemma add_components_pieces L n nv d js : forall a, ashape n a ->
  add_components L n nv d js a = (do ks <- mapM (cpiece L n nv d) (map snd js); Ok (fold_left aplus ks a)).
Proof.
  induction js as [|[s j] js IH]; intros a S; [reflexivity|]. cbn [add_components map snd mapM].
  rewrite add_component_piece by exact S. destruct (cpiece L n nv d j) as [k|] eqn:E; [|reflexivity]. cbn [bind].
  rewrite IH. 2:{ apply aplus_shape; [exact S|]. eapply cpiece_shape; exact E. }
  destruct (mapM (cpiece L n nv d) (map snd js)); reflexivity.
Qed.

(** The accumulated data as separate sums. *)
Lemma fold_aplus ks : forall a,
  ac_H (fold_left aplus ks a) = fold_left madd (map ac_H ks) (ac_H a) /\
  ac_c (fold_left aplus ks a) = fold_left vadd (map ac_c ks) (ac_c a) /\
  ac_A (fold_left aplus ks a) = ac_A a ++ flat_map ac_A ks /\
  ac_b (fold_left aplus ks a) = ac_b a ++ flat_map ac_b ks /\
  ac_G (fold_left aplus ks a) = ac_G a ++ flat_map ac_G ks /\
  ac_h (fold_left aplus ks a) = ac_h a ++ flat_map ac_h ks.
Proof.
  induction ks as [|k ks IH]; intros a; [cbn; now rewrite !app_nil_r|]. cbn [fold_left map flat_map].
  destruct (IH (aplus a k)) as (A & B & C & D & E & F). cbn in *. rewrite A, B, C, D, E, F, <- !app_assoc. repeat split.
Qed.

(** Shape of the assembled problem. *)
Definition start (n nv : nat) (pd : jdata) : acc :=
  mkAcc (mzero n n) (vzero n) [] [] [eye nv; mneg (eye nv)] [vneg (jd_vmin pd); jd_vmax pd].
Lemma start_shape n nv pd : ashape n (start n nv pd).
Proof. split; [apply mzero_is_mat|apply vzero_length]. Qed.

Lemma mapM_ok {A B} (f : A -> res B) l ys : mapM f l = Ok ys <-> Forall2 (fun x y => f x = Ok y) l ys.
Proof.
  revert ys. induction l as [|x l IH]; intros ys; cbn [mapM].
  - split; [intros [= <-]; constructor|intros H; inversion H; reflexivity].
  - destruct (f x) as [y|] eqn:E; cbn [bind].
    + destruct (mapM f l) as [zs|] eqn:E'; cbn [bind].
      * split; [intros [= <-]; constructor; [exact E|apply IH; reflexivity]|]. intros H. inversion H as [|? y' ? zs' H1 H2]; subst.
        rewrite E in H1. injection H1 as ->. apply IH in H2. injection H2 as ->. reflexivity.
      * split; [discriminate|]. intros H. inversion H as [|? y' ? zs' H1 H2]; subst. apply IH in H2. discriminate.
    + split; [discriminate|]. intros H. inversion H; subst. congruence.
Qed.

Lemma assemble_pieces L sm pd d Q : assemble L sm pd d = Ok Q ->
  let n := m_nv sm in let nv := m_nv (jd_model pd) in
  exists ks, Forall2 (fun j k => cpiece L n nv d j = Ok k) (comps_of pd) ks /\
  qp_P Q = fold_left madd (map ac_H ks) (mzero n n) /\
  qp_c Q = fold_left vadd (map ac_c ks) (vzero n) /\
  qp_eq Q = match flat_map ac_A ks with [] => None | _ => Some (List.concat (flat_map ac_A ks), List.concat (flat_map ac_b ks)) end /\
  qp_G Q = List.concat ([eye nv; mneg (eye nv)] ++ flat_map ac_G ks) /\
  qp_h Q = List.concat ([vneg (jd_vmin pd); jd_vmax pd] ++ flat_map ac_h ks) /\
  Forall (fun M => is_mat (List.length M) nv M) (flat_map ac_A ks) /\ Forall (fun M => is_mat (List.length M) nv M) (flat_map ac_G ks).
Proof.
  intros H n nv. unfold assemble in H. fold n nv in H. change (mkAcc _ _ _ _ _ _) with (start n nv pd) in H.
  rewrite add_components_pieces in H by apply start_shape. fold (comps_of pd) in H.
  destruct (mapM (cpiece L n nv d) (comps_of pd)) as [ks|] eqn:E; [|discriminate]. cbn [bind] in H.
  destruct (fold_aplus ks (start n nv pd)) as (F1 & F2 & F3 & F4 & F5 & F6). cbn [start ac_H ac_c ac_A ac_b ac_G ac_h app] in F1, F2, F3, F4, F5, F6.
  rewrite F1, F2, F3, F4, F5, F6 in H. exists ks. split; [now apply mapM_ok|].
  unfold vstack in H.
  destruct (forallb (fun M => is_matb (List.length M) nv M) (eye nv :: mneg (eye nv) :: flat_map ac_G ks)) eqn:EG.
  2:{ destruct (match flat_map ac_A ks with [] => _ | _ :: _ => _ end); discriminate. }
  assert (HG : Forall (fun M => is_mat (List.length M) nv M) (flat_map ac_G ks)).
  { apply Forall_forall. intros M HM. rewrite forallb_forall in EG. apply is_matb_spec, EG. right; right; exact HM. }
  destruct (flat_map ac_A ks) as [|A0 As] eqn:EA.
  - cbn [bind check] in H. injection H as <-. cbn. repeat split; try reflexivity; auto.
  - destruct (forallb (fun M => is_matb (List.length M) nv M) (A0 :: As)) eqn:EA'; [|discriminate]. cbn [bind check] in H. injection H as <-. cbn.
    repeat split; try reflexivity; auto. apply Forall_forall. intros M HM. rewrite forallb_forall in EA'. apply is_matb_spec, EA', HM.
Qed.
(** Conversely, assembly succeeds when every piece is there with the right shape. *)
Lemma assemble_ok L sm pd d ks : let n := m_nv sm in let nv := m_nv (jd_model pd) in
  Forall2 (fun j k => cpiece L n nv d j = Ok k) (comps_of pd) ks ->
  Forall (fun M => is_mat (List.length M) nv M) (flat_map ac_A ks) -> Forall (fun M => is_mat (List.length M) nv M) (flat_map ac_G ks) ->
  exists Q, assemble L sm pd d = Ok Q.
Proof.
  intros n nv F HA HG. unfold assemble. fold n nv. change (mkAcc _ _ _ _ _ _) with (start n nv pd).
  rewrite add_components_pieces by apply start_shape. fold (comps_of pd).
  assert (EK : mapM (cpiece L n nv d) (comps_of pd) = Ok ks) by now apply mapM_ok. rewrite EK. cbn [bind].
  destruct (fold_aplus ks (start n nv pd)) as (F1 & F2 & F3 & F4 & F5 & F6). rewrite F3, F5, F4. cbn [start ac_A ac_b ac_G app].
  unfold vstack.
  assert (BG : forallb (fun M => is_matb (List.length M) nv M) (eye nv :: mneg (eye nv) :: flat_map ac_G ks) = true).
  { assert (E1 : is_mat nv nv (eye nv)) by apply eye_is_mat.
    assert (E2 : is_mat nv nv (mneg (eye nv))).
    { destruct E1 as [A B]. split; [unfold mneg; now rewrite map_length|]. unfold mneg. apply Forall_map. eapply Forall_impl; [|exact B]. intros r <-. apply vneg_length. }
    cbn [forallb]. rewrite (proj1 E1), (proj1 E2). rewrite (proj2 (is_matb_spec _ _ _) E1), (proj2 (is_matb_spec _ _ _) E2). cbn.
    apply forallb_forall. intros M HM. apply is_matb_spec. rewrite Forall_forall in HG. now apply HG. }
  rewrite BG. destruct (flat_map ac_A ks) as [|A0 As] eqn:EA; [cbn; eauto|].
  replace (forallb _ (A0 :: As)) with true; [cbn; eauto|]. symmetry. apply forallb_forall. intros M HM. apply is_matb_spec. rewrite Forall_forall in HA. now apply HA.
Qed.
