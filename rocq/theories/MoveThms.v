(** Moving the target of an undamped task. *)
From Verif Require Import Base Lin LinFacts Mjx Typing Component Problem SpecComponent SpecProblem SpecJoint SpecHistory SpecShape SpecFit JaxComponents LocalIK SpecQP QPFacts QPThms QPThms2 QPThms3 QPThms4 SpecSolve SolveFacts SolveThms SpecTrade TradeFacts TradeThms TradeThms2 SpecTol TolThms3 SpecDeriv DerivThms Conf SpecMotion SpecConf.
From Verif Require Import ComponentFacts ComponentFacts2 ApiSteps FitFacts FitFacts2 FitFacts3 ScaleThms SpecMove MoveFacts.
Open Scope R_scope.

(** ** Values *)
Lemma bc2_shift x t0 t e : bc2 Rminus x t0 = Ok e -> List.length t0 = List.length e -> List.length t = List.length e -> bc2 Rminus x t = Ok (vadd e (vsub t0 t)).
Proof.
  intros H L0 L1. destruct (Nat.eq_dec (List.length x) (List.length t0)) as [E|N].
  - rewrite bc2_same in * by congruence. injection H as <-. f_equal. assert (Lt : List.length t = List.length t0) by (rewrite L1; symmetry; exact L0). clear L0 L1. revert t0 t E Lt. induction x as [|a x IH]; intros [|b t0] [|c t] E Lt; try discriminate; [reflexivity|]. injection E as E. injection Lt as Lt.
    cbn. unfold vadd, vsub, vmap2 in *. cbn. rewrite (IH t0 t E Lt). f_equal. ring.
  - assert (X : exists a, x = [a]).
    { unfold bc2 in H. destruct (Nat.eqb_spec (List.length x) (List.length t0)) as [K|K]; [contradiction|]. destruct x as [|a [|]]; [|eauto|]; destruct t0 as [|b [|]]; cbn in H; try discriminate H; try (injection H as <-; cbn in L0; discriminate). }
    destruct X as [a ->]. assert (bc2 Rminus [a] t0 = Ok (map (fun b => a - b) t0)) as E0. { unfold bc2. destruct (Nat.eqb_spec (List.length [a]) (List.length t0)); [contradiction|]. reflexivity. }
    rewrite E0 in H. injection H as <-. rewrite map_length in L1. assert (E1 : bc2 Rminus [a] t = Ok (map (fun b => a - b) t)). { unfold bc2. destruct (Nat.eqb_spec (List.length [a]) (List.length t)) as [K|K]; [congruence|]. reflexivity. }
    rewrite E1. f_equal. clear - L1. revert t L1. induction t0 as [|b t0 IH]; intros [|c t] L1; try discriminate; [reflexivity|]. injection L1 as L1. cbn. unfold vadd, vsub, vmap2 in *. cbn. rewrite <- (IH t L1). f_equal. ring.
Qed.
Lemma vec_of_tvec t : vec_of (tvec t) = Ok t.
Proof. reflexivity. Qed.
Lemma target_vec_of (t : tensor) t0 : (if Nat.eqb (ndim t) 1 then Some (t_data t) else None) = Some t0 -> vec_of t = Ok t0 \/ exists e, vec_of t = Err e.
Proof. unfold vec_of. destruct (Nat.eqb_spec (ndim t) 1) as [->|N]; [|discriminate]. intros H. left. congruence. Qed.
Lemma retarget_value L j t0 t d e : target_of j = Some t0 -> call L j d = Ok e -> List.length t0 = List.length e -> List.length t = List.length e -> call L (retarget t j) d = Ok (vadd e (vsub t0 t)).
Proof.
  unfold target_of, call, retarget. cbn [j_model j_mask_idxs j_ext]. destruct (j_ext j) as [W lm [T|i ty T|i ty T|T q|f]| |] eqn:E; try discriminate; intros HT HC L0 L1; apply target_vec_of in HT.
  - unfold call_com in *. destruct (np_idx _ _); [|discriminate]. cbn [bind] in *. destruct (jx_idx _ _); [|discriminate]. cbn [bind] in *. destruct (jx_gather _ _); [|discriminate]. cbn [bind] in *. destruct HT as [HT|[x HT]]; rewrite HT in HC; [|discriminate]. cbn [bind] in *. now apply bc2_shift with (1 := HC).
  - unfold call_pos in *. destruct (get_pos _ _ _); [|discriminate]. cbn [bind] in *. destruct (jx_gather _ _); [|discriminate]. cbn [bind] in *. destruct HT as [HT|[x HT]]; rewrite HT in HC; [|discriminate]. cbn [bind] in *. now apply bc2_shift with (1 := HC).
  - unfold call_joint in *. destruct (jx_gather _ _); [|discriminate]. cbn [bind] in *. destruct HT as [HT|[x HT]]; rewrite HT in HC; [|discriminate]. cbn [bind] in *. now apply bc2_shift with (1 := HC).
Qed.
Lemma retarget_model t j : j_model (retarget t j) = j_model j. Proof. reflexivity. Qed.
Lemma retarget_automatic t j : automatic j -> automatic (retarget t j).
Proof. unfold automatic, retarget. cbn [j_ext]. destruct (j_ext j) as [? ? []|? []|? ? ? []]; auto. Qed.
(** Moving the target does not change the Jacobian. *)
Lemma retarget_jacobian_joint L t j d : ~ automatic j -> target_of j <> None -> jacobian L (retarget t j) d = jacobian L j d.
Proof. unfold automatic, target_of, jacobian, retarget. cbn [j_ext]. destruct (j_ext j) as [? ? []|? []|? ? ? []] eqn:E; intros A B; try (now contradiction A); try (now contradiction B). reflexivity. Qed.
Lemma retarget_jacobian_auto L t t0 j q J : let m := j_model j in automatic j -> target_of j = Some t0 -> List.length t = List.length t0 -> sound_jac (l_jacrev L) -> smooth L j (List.length t0) q -> kinematic L j -> List.length q = m_nq m -> d_qpos (update L m q) = q ->
  jacobian L j (update L m q) = Ok J -> jacobian L (retarget t j) (update L m q) = Ok J.
Proof.
  cbv zeta. intros Ha HT Lt Hs (Ht & M & HM & HJ) Hk Hq Hd HJac. rewrite (auto_jacobian L j (List.length t0) q M) in HJac; auto.
  assert (V : forall y, List.length y = m_nq (j_model j) -> exists e, call L j (update L (j_model j) y) = Ok e /\ List.length e = List.length t0 /\ call L (retarget t j) (update L (j_model j) y) = Ok (vadd e (vsub t0 t))).
  { intros y Hy. destruct (Ht y Hy) as (e & He & Le). exists e. split; [exact He|]. split; [exact Le|]. apply retarget_value with (1 := HT) (2 := He); congruence. }
  pose proof (auto_jacobian L (retarget t j) (List.length t0) q M Hs (retarget_automatic t j Ha)) as K. cbn [retarget j_model] in K. rewrite K; auto.
  - intros y Hy. destruct (V y Hy) as (e & He & Le & He'). specialize (Hk y Hy). cbn [retarget j_model] in *. clear K. unfold automatic in Ha. unfold target_of in HT. 
    destruct (j_ext j) as [W lm [T|i ty T|i ty T|T qq|f]|g []|a h W []] eqn:Ex; try contradiction; try discriminate; cbn [retarget j_ext] in *; rewrite ?Ex in *.
    + destruct Hk as (dd & E1 & E2). exists dd. split; [exact E1|]. etransitivity; [|symmetry; exact He']. apply retarget_value; [unfold target_of; now rewrite Ex|congruence|congruence|congruence].
    + etransitivity; [|symmetry; exact He']. apply retarget_value; [unfold target_of; now rewrite Ex|congruence|congruence|congruence].
  - intros y Hy. destruct (V y Hy) as (e & _ & Le & He'). eexists. split; [exact He'|]. rewrite vadd_length; [|rewrite vsub_length; congruence]. rewrite vsub_length; congruence.
  - intros i Hi eps He. destruct (HJ i Hi eps He) as (del & Hdel & G). exists del. split; [exact Hdel|]. intros y Hy Hsz. specialize (G y Hy Hsz).
    destruct (V y ltac:(congruence)) as (e & E1 & L1 & E2). destruct (V q Hq) as (e0 & E3 & L3 & E4). unfold value_at in *. cbn [retarget j_model] in *. rewrite E1, E3 in G. fold (retarget t j). rewrite E2, E4.
    assert (Hi' : (i < List.length t0)%nat) by (rewrite <- (proj1 HM); exact Hi). rewrite !nth_vadd by (rewrite ?vsub_length; congruence). match goal with |- Rabs ?a <= _ => replace a with (nth i e 0 - nth i e0 0 - dot (nth i M []) (vsub y q)) by ring end. exact G.
Qed.
