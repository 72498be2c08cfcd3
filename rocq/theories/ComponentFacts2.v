(** Lemmas about reads, gains, costs, masks and single setters. *)
From Verif Require Import Base Lin LinFacts Mjx Typing Component SpecComponent ComponentFacts.
Open Scope R_scope.
Open Scope Z_scope.
Open Scope nat_scope.

Lemma forced_public c a' k b : forced (c_at c) = Ok a' -> same_public c (mkC a' b k).
Proof.
  intros H. destruct (forced_other _ _ H) as (h1 & h2 & h3 & h4 & h5 & h6).
  unfold same_public. cbn. repeat (split; [assumption|]).
  rewrite !mask_fst, !mask_idxs_fst. cbn. rewrite (forced_idem _ _ H), H. now split.
Qed.
Lemma same_public_at c c' : c_at c' = c_at c -> same_public c c'.
Proof.
  intros H. unfold same_public. rewrite !mask_fst, !mask_idxs_fst, H. repeat split.
Qed.

Lemma read_effect c : reachable c ->
  fst (jax_component (snd (jax_component c))) = fst (jax_component c) /\
  same_public c (snd (jax_component c)) /\
  (is_ok (fst (jax_component c)) = false -> c_modified (snd (jax_component c)) = true).
Proof.
  intros Hr. pose proof (reachable_Inv _ Hr) as HI.
  destruct (jax_state c HI) as (HI' & Hat & Hok & Herr).
  assert (Hpub : jax_pure (c_at (snd (jax_component c))) = jax_pure (c_at c)).
  { destruct Hat as [->|F]; [reflexivity|now apply jax_pure_forced]. }
  split; [now rewrite (jax_value _ HI'), (jax_value _ HI)|]. split.
  - destruct (snd (jax_component c)) as [a' b k] eqn:E. cbn in Hat.
    destruct Hat as [Hat|F]; [now apply same_public_at|now apply forced_public].
  - intros Hf. destruct (Herr Hf) as [H|H]; [exact H|]. rewrite H.
    destruct (c_modified c) eqn:Hm; [reflexivity|].
    rewrite (jax_value _ HI) in Hf. destruct (HI Hm) as (j & _ & Hj). now rewrite Hj in Hf.
Qed.

Lemma build_ext_published a x : a_dim a <> (-1)%Z -> (build_ext a = Ok x <-> ext_published a x).
Proof.
  intros Hd. split.
  - unfold build_ext. destruct (a_ext a) as [cost lm k|sdg k|act hard soft k] eqn:E.
    + destruct (matrix_cost a) as [W|] eqn:Hw; cbn; [|discriminate].
      destruct k as [t|o t|o t|[fm t q]|f]; cbn; intros H.
      * injection H as <-. econstructor; eauto.
      * injection H as <-. econstructor; eauto.
      * injection H as <-. eapply pub_frame; eauto.
      * destruct t; cbn in H; [|discriminate]. destruct q; cbn in H; [|discriminate].
        injection H as <-. eapply pub_joint; eauto.
      * injection H as <-. econstructor; eauto.
    + destruct k as [[o lt li lo hi]|[fm lo hi q]|[dm bs er ex ps n]|f]; cbn.
      * destruct (ob_id o =? -1)%Z eqn:Eo; cbn; [discriminate|]. intros H; injection H as <-.
        econstructor; eauto. now apply Z.eqb_neq.
      * destruct lo; cbn; [|discriminate]. destruct hi; cbn; [|discriminate]. destruct q; cbn; [|discriminate].
        intros H; injection H as <-. econstructor; eauto.
      * unfold d_min_vec, dim, zsize. destruct (a_dim a =? -1)%Z eqn:Ed; cbn; [discriminate|].
        destruct (a_dim a <? 0)%Z eqn:El; cbn; [discriminate|].
        destruct ps; cbn; [|discriminate]. intros H; injection H as <-.
        econstructor; eauto. apply Z.ltb_ge in El. exact El.
      * intros H; injection H as <-. now constructor.
    + destruct (soft_constraint_cost a) as [W|] eqn:Hw; cbn; [|discriminate].
      intros H; injection H as <-. destruct k; econstructor; eauto.
  - intros H. unfold build_ext. destruct H as [???? E Hw|????? E Hw|????? E Hw|?????? E Hw|???? E Hw|?????? E Ho|????? E|??????? E Hp|?? E|???? E Hw|????? E Hw];
      rewrite E; try (rewrite Hw; reflexivity); try reflexivity.
    + cbn. apply Z.eqb_neq in Ho. now rewrite Ho.
    + cbn. unfold d_min_vec, dim, zsize. apply Z.eqb_neq in Hd. rewrite Hd. cbn.
      replace (a_dim a <? 0)%Z with false by (symmetry; apply Z.ltb_ge; exact Hp). reflexivity.
Qed.

Lemma jax_pure_published c j : jax_pure (c_at c) = Ok j <-> published c j.
Proof.
  unfold jax_pure, published. rewrite mask_idxs_fst. split.
  - destruct (a_model (c_at c)) as [m|] eqn:Em; [|discriminate].
    destruct (a_dim (c_at c) =? -1)%Z eqn:Ed; [discriminate|]. apply Z.eqb_neq in Ed.
    unfold build_pure, dim. rewrite Em. apply Z.eqb_neq in Ed. rewrite Ed. apply Z.eqb_neq in Ed. cbn.
    destruct (vector_gain (c_at c)) as [g|]; cbn; [|discriminate].
    destruct (forced (c_at c)) as [a'|] eqn:F; cbn; [|discriminate].
    destruct (build_ext a') as [x|] eqn:B; cbn; [|discriminate].
    intros H; injection H as <-. cbn. repeat split; auto.
    apply build_ext_published; [exact Ed|]. now rewrite <- (build_ext_forced _ _ F).
  - intros (Hd & Hjd & Hm & Hg & Hf & Hi & He). rewrite Hm. pose proof Hd as Hd'. apply Z.eqb_neq in Hd. rewrite Hd.
    unfold build_pure, dim. rewrite Hm, Hd, Hg. cbn.
    destruct (forced (c_at c)) as [a'|] eqn:F; cbn in *; [|discriminate].
    apply build_ext_published in He; [|exact Hd']. rewrite (build_ext_forced _ _ F), He. cbn.
    destruct j; cbn in *. injection Hi as ->. now subst.
Qed.

(** ** Gains *)
Lemma wf_scalar t : wf_tensor t -> t_shape t = [] -> exists x, t = mkT [] [x].
Proof.
  destruct t as [s d]. unfold wf_tensor. cbn. intros H ->. cbn in H.
  destruct d as [|x [|]]; try discriminate. now exists x.
Qed.
Lemma wf_vector t n : wf_tensor t -> t_shape t = [n] -> List.length (t_data t) = n.
Proof. unfold wf_tensor. intros H E. rewrite E in H. cbn in H. lia. Qed.

Lemma zsize_nat d : zsize (Z.of_nat d) = Ok d.
Proof.
  unfold zsize. replace (Z.of_nat d <? 0)%Z with false by (symmetry; apply Z.ltb_ge; lia). now rewrite Nat2Z.id.
Qed.
Lemma of_nat_neq_m1 d : (Z.of_nat d =? -1)%Z = false.
Proof. apply Z.eqb_neq. lia. Qed.

Lemma vector_gain_iff a d v : a_dim a = Z.of_nat d -> wf_tensor (a_gain a) ->
  (vector_gain a = Ok v <-> gain_means (a_gain a) d v).
Proof.
  intros Hd Hw. unfold vector_gain, dim, gain_means, ndim. rewrite Hd, of_nat_neq_m1. cbn.
  destruct (t_shape (a_gain a)) as [|n [|k r]] eqn:E; cbn.
  - rewrite zsize_nat. destruct (wf_scalar _ Hw E) as [x Hx]. rewrite Hx. cbn. split.
    + intros H; injection H as <-. left. now exists x.
    + intros [(y & Hy & ->)|(H & _)]; [injection Hy as <-; reflexivity|discriminate].
  - rewrite (wf_vector _ _ Hw E). destruct (Z.of_nat n =? Z.of_nat d)%Z eqn:En; cbn.
    + apply Z.eqb_eq in En. assert (n = d) as -> by lia. split.
      * intros H; injection H as <-. right. now split.
      * intros [(y & Hy & _)|(_ & ->)]; [rewrite Hy in E; discriminate|reflexivity].
    + apply Z.eqb_neq in En. split; [discriminate|].
      intros [(y & Hy & _)|(H & _)]; [rewrite Hy in E; discriminate|]. injection H as ->. lia.
  - split; [discriminate|].
    intros [(y & Hy & _)|(H & _)]; [rewrite Hy in E; discriminate|discriminate].
Qed.
Lemma vector_gain_err a e : wf_tensor (a_gain a) -> vector_gain a = Err e -> e = ValueError.
Proof.
  intros Hw. unfold vector_gain, dim, ndim, zsize.
  destruct (a_dim a =? -1)%Z; [congruence|].
  destruct (t_shape (a_gain a)) as [|n [|k r]] eqn:E; cbn.
  - destruct (a_dim a <? 0)%Z; cbn; [congruence|]. destruct (wf_scalar _ Hw E) as [x ->]. discriminate.
  - destruct (negb _); [congruence|discriminate].
  - congruence.
Qed.
Lemma vector_gain_nodim a : a_dim a = (-1)%Z -> vector_gain a = Err ValueError.
Proof. intros H. unfold vector_gain. now rewrite H. Qed.

(** ** Costs *)
Lemma entry_ext d W W' : is_mat d d W -> is_mat d d W' ->
  (forall i j, i < d -> j < d -> entry W i j = entry W' i j) -> W = W'.
Proof.
  intros [L F] [L' F'] H.
  apply nth_ext with (d := []) (d' := []); [congruence|].
  intros i Hi. rewrite L in Hi.
  assert (E1 : List.length (nth i W []) = d) by (rewrite Forall_nth in F; apply F; lia).
  assert (E2 : List.length (nth i W' []) = d) by (rewrite Forall_nth in F'; apply F'; lia).
  apply nth_ext with (d := 0%R) (d' := 0%R); [congruence|].
  intros j Hj. apply H; lia.
Qed.

Lemma nth_map_seq {A} (f : nat -> A) n i z : i < n -> nth i (map f (seq 0 n)) z = f i.
Proof.
  intros H. rewrite nth_indep with (d' := f 0%nat) by (rewrite map_length, seq_length; lia).
  rewrite map_nth, seq_nth by lia. f_equal.
Qed.

Lemma entry_eye n i j : i < n -> j < n -> entry (eye n) i j = if Nat.eqb i j then 1%R else 0%R.
Proof. intros Hi Hj. unfold entry, eye, unit_row. rewrite nth_map_seq by lia. now rewrite nth_map_seq. Qed.
Lemma entry_mscale k A i j : entry (mscale k A) i j = (k * entry A i j)%R.
Proof.
  unfold entry, mscale. change (@nil R) with (vscale k []) at 1. rewrite map_nth.
  apply nth_vscale.
Qed.
Lemma entry_diag d i j : i < List.length d -> j < List.length d ->
  entry (diag d) i j = if Nat.eqb i j then nth i d 0%R else 0%R.
Proof. intros Hi Hj. unfold entry, diag. rewrite nth_map_seq by lia. now rewrite nth_map_seq. Qed.

Lemma rows_of_is_mat r c l : List.length l = r * c -> is_mat r c (rows_of r c l).
Proof.
  revert l. induction r as [|r IH]; intros l H; [split; [reflexivity|constructor]|]. cbn.
  cbn in H. destruct (IH (skipn c l)) as [L F]; [rewrite skipn_length; lia|].
  split; [cbn; congruence|]. constructor; [|exact F]. rewrite firstn_length. lia.
Qed.
Lemma nth_firstn_lt {A} n i (l : list A) z : i < n -> nth i (firstn n l) z = nth i l z.
Proof.
  revert n l. induction i as [|i IH]; intros n l H; destruct n; try lia; destruct l; cbn; auto.
  apply IH. lia.
Qed.
Lemma nth_skipn_add {A} n i (l : list A) z : nth i (skipn n l) z = nth (n + i) l z.
Proof. revert l. induction n as [|n IH]; intros l; [reflexivity|]. destruct l; cbn; [destruct i; reflexivity|apply IH]. Qed.
Lemma entry_rows_of r c l i j : i < r -> j < c -> entry (rows_of r c l) i j = nth (i * c + j) l 0%R.
Proof.
  revert r l. induction i as [|i IH]; intros r l Hi Hj; destruct r as [|r]; try lia; unfold entry; cbn.
  - now apply nth_firstn_lt.
  - fold (entry (rows_of r c (skipn c l)) i j). rewrite IH by lia. rewrite nth_skipn_add. f_equal. lia.
Qed.

Lemma cost_matrix_iff t d W : wf_tensor t -> (cost_matrix (Z.of_nat d) t = Ok W <-> cost_means t d W).
Proof.
  intros Hw. unfold cost_matrix, cost_means, ndim.
  destruct (t_shape t) as [|n [|k [|l r]]] eqn:E; cbn [List.length].
  - rewrite zsize_nat. cbn. destruct (wf_scalar _ Hw E) as [x Hx]. rewrite Hx. cbn. split.
    + intros H; injection H as <-. split; [apply mscale_is_mat, eye_is_mat|]. left. exists x. split; [reflexivity|].
      intros i j Hi Hj. rewrite entry_mscale, entry_eye by assumption. destruct (Nat.eqb i j); ring.
    + intros (Hm & [(y & Hy & He)|[(H & _)|(H & _)]]); [|discriminate|discriminate].
      injection Hy as <-. f_equal. apply entry_ext with d; auto using mscale_is_mat, eye_is_mat.
      intros i j Hi Hj. rewrite entry_mscale, entry_eye, He by assumption. destruct (Nat.eqb i j); ring.
  - pose proof (wf_vector _ _ Hw E) as Hl. rewrite Hl.
    destruct (Z.of_nat n =? Z.of_nat d)%Z eqn:En; cbn.
    + apply Z.eqb_eq in En. assert (n = d) as -> by lia. split.
      * intros H; injection H as <-. split; [rewrite <- Hl; apply diag_is_mat|]. right; left. split; [reflexivity|].
        intros i j Hi Hj. apply entry_diag; lia.
      * intros (Hm & [(y & Hy & _)|[(_ & He)|(H & _)]]); [rewrite Hy in E; discriminate| |discriminate].
        f_equal. apply entry_ext with d; auto; [rewrite <- Hl; apply diag_is_mat|].
        intros i j Hi Hj. rewrite He by assumption. apply entry_diag; lia.
    + apply Z.eqb_neq in En. split; [discriminate|].
      intros (_ & [(y & Hy & _)|[(H & _)|(H & _)]]); [rewrite Hy in E; discriminate| |discriminate].
      injection H as ->. lia.
  - unfold tmat. rewrite E.
    destruct ((Z.of_nat n =? Z.of_nat d) && (Z.of_nat k =? Z.of_nat d))%Z%bool eqn:En.
    + apply andb_prop in En. destruct En as [E1 E2]. apply Z.eqb_eq in E1, E2.
      assert (n = d) as -> by lia. assert (k = d) as -> by lia.
      assert (Hl : List.length (t_data t) = d * d) by (unfold wf_tensor in Hw; rewrite E in Hw; cbn in Hw; lia).
      split.
      * intros H; injection H as <-. split; [now apply rows_of_is_mat|]. right; right. split; [reflexivity|].
        intros i j Hi Hj. now apply entry_rows_of.
      * intros (Hm & [(y & Hy & _)|[(H & _)|(_ & He)]]); [rewrite Hy in E; discriminate|discriminate|].
        f_equal. apply entry_ext with d; auto using rows_of_is_mat.
        intros i j Hi Hj. rewrite He by assumption. now apply entry_rows_of.
    + split; [discriminate|].
      intros (_ & [(y & Hy & _)|[(H & _)|(H & _)]]); [rewrite Hy in E; discriminate|discriminate|].
      injection H as -> ->. rewrite Z.eqb_refl in En. discriminate.
  - split; [discriminate|].
    intros (_ & [(y & Hy & _)|[(H & _)|(H & _)]]); [rewrite Hy in E; discriminate|discriminate|discriminate].
Qed.
Lemma cost_matrix_err t d e : wf_tensor t -> cost_matrix d t = Err e -> e = ValueError.
Proof.
  intros Hw. unfold cost_matrix, ndim, zsize.
  destruct (t_shape t) as [|n [|k [|l r]]] eqn:E; cbn [List.length].
  - destruct (d <? 0)%Z; cbn; [congruence|]. destruct (wf_scalar _ Hw E) as [x ->]. discriminate.
  - destruct (negb _); [congruence|discriminate].
  - destruct (_ && _)%bool; [discriminate|congruence].
  - congruence.
Qed.

Lemma mv_scaled_eye x n e : List.length e = n -> mv (mscale x (eye n)) e = map (Rmult x) e.
Proof. intros H. rewrite mv_mscale, mv_eye by assumption. reflexivity. Qed.

(** ** Masks *)
Lemma argwhere_aux_in k l i :
  In i (map (fun p => Z.of_nat (fst p)) (filter (fun p => negb (snd p =? 0)%Z) (combine (seq k (List.length l)) l)))
  <-> (Z.of_nat k <= i < Z.of_nat (k + List.length l))%Z /\ nth (Z.to_nat i - k) l 0%Z <> 0%Z.
Proof.
  revert k. induction l as [|x l IH]; intros k; cbn [List.length seq combine filter map].
  - cbn. split; [tauto|]. intros [H _]. lia.
  - cbn [snd]. specialize (IH (S k)).
    assert (Hs : (In i (map (fun p : nat * Z => Z.of_nat (fst p)) (filter (fun p : nat * Z => negb (snd p =? 0)%Z) (combine (seq (S k) (List.length l)) l))))
       <-> (Z.of_nat (S k) <= i < Z.of_nat (k + S (List.length l)))%Z /\ nth (Z.to_nat i - k) (x :: l) 0%Z <> 0%Z).
    { rewrite IH. split; intros [H1 H2].
      - split; [lia|]. replace (Z.to_nat i - k) with (S (Z.to_nat i - S k)) by lia. exact H2.
      - split; [lia|]. replace (Z.to_nat i - k) with (S (Z.to_nat i - S k)) in H2 by lia. exact H2. }
    destruct (x =? 0)%Z eqn:E; cbn [negb].
    + rewrite Hs. apply Z.eqb_eq in E. split; intros [H1 H2]; (split; [lia|exact H2] || idtac).
      split; [|exact H2]. destruct (Z.eq_dec i (Z.of_nat k)) as [->|]; [|lia].
      exfalso. apply H2. rewrite Nat2Z.id, Nat.sub_diag. exact E.
    + apply Z.eqb_neq in E. cbn [map fst In]. rewrite Hs. split.
      * intros [<-|[H1 H2]].
        -- split; [lia|]. rewrite Nat2Z.id, Nat.sub_diag. exact E.
        -- split; [lia|exact H2].
      * intros [H1 H2]. destruct (Z.eq_dec i (Z.of_nat k)) as [->|]; [now left|right]. split; [lia|exact H2].
Qed.
Lemma argwhere_aux_sorted k l :
  StronglySorted Z.lt (map (fun p => Z.of_nat (fst p)) (filter (fun p => negb (snd p =? 0)%Z) (combine (seq k (List.length l)) l))).
Proof.
  revert k. induction l as [|x l IH]; intros k; cbn [List.length seq combine filter map]; [constructor|].
  cbn [snd]. destruct (x =? 0)%Z; cbn [negb]; [apply IH|]. cbn [map fst]. constructor; [apply IH|].
  apply Forall_forall. intros i Hi. apply argwhere_aux_in in Hi. lia.
Qed.
Lemma argwhere_selects l : selects l (argwhere l).
Proof.
  split; [apply argwhere_aux_sorted|]. intros i. unfold argwhere. rewrite argwhere_aux_in.
  cbn [Nat.add]. rewrite Nat.sub_0_r. now cbn.
Qed.
Lemma argwhere_length l : List.length (argwhere l) = count_true l.
Proof.
  unfold argwhere, count_true. rewrite map_length. generalize 0 as k.
  induction l as [|x l IH]; intros k; cbn [List.length seq combine filter map]; [reflexivity|].
  cbn [snd]. destruct (x =? 0)%Z; cbn [negb List.length]; [apply IH|]. f_equal. apply IH.
Qed.

Lemma mask_idxs_err c : (a_mask (c_at c) = None -> (-1 <= a_dim (c_at c))%Z) ->
  ((exists e, fst (mask_idxs c) = Err e) <-> (a_mask (c_at c) = None /\ a_dim (c_at c) = (-1)%Z)).
Proof.
  rewrite mask_idxs_fst. unfold forced, get_default_mask, dim, zsize. intros Hd.
  destruct (a_mask (c_at c)) as [l|]; cbn.
  - split; [intros [e H]; discriminate|intros [H _]; discriminate].
  - destruct (a_dim (c_at c) =? -1)%Z eqn:E; cbn.
    + apply Z.eqb_eq in E. split; [auto|eauto].
    + apply Z.eqb_neq in E. replace (a_dim (c_at c) <? 0)%Z with false.
      2: { symmetry. apply Z.ltb_ge. specialize (Hd eq_refl). lia. }
      cbn. split; [intros [e H]; discriminate|intros [_ H]; congruence].
Qed.

Lemma mask_idxs_default c d : a_mask (c_at c) = None -> a_dim (c_at c) = Z.of_nat d ->
  fst (mask_idxs c) = Ok (map Z.of_nat (seq 0 d)) /\ fst (mask c) = Ok (repeat 1%Z d).
Proof.
  intros Hm Hd. rewrite mask_idxs_fst, mask_fst. unfold forced, get_default_mask, dim.
  rewrite Hm, Hd, of_nat_neq_m1. cbn. rewrite zsize_nat. cbn. split; [|reflexivity].
  f_equal. unfold zrange. rewrite Z.sub_0_r, Nat2Z.id. apply map_ext. intros k. lia.
Qed.
Lemma mask_idxs_explicit c m : a_mask (c_at c) = Some m ->
  fst (mask_idxs c) = Ok (a_mask_idxs (c_at c)) /\ fst (mask c) = Ok m.
Proof. intros Hm. rewrite mask_idxs_fst, mask_fst. unfold forced. rewrite Hm. cbn. now rewrite Hm. Qed.
