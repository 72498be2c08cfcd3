(** The self-collision barrier: values and Jacobian rows. *)
From Verif Require Import Base Lin LinFacts Mjx Typing Component SpecComponent SpecJoint SpecHistory Rot FrameJac Collide JaxComponents.
From Verif Require Import SpecCollision SpecTree SpecShape SpecContact SpecSelf.
From Verif Require Import ComponentFacts ComponentFacts2 ApiSteps JointFacts BindFacts BindFacts2 BindFacts3 CoreFacts ProblemFacts CompThms BindThms CollisionPairs CollideFacts CollideFacts2.
From Verif Require Import QPFacts MotionFacts MotionFacts2 ConfFacts3 TreeFacts FrameFacts.
Open Scope R_scope.
Open Scope nat_scope.

(** ** The smallest distances *)
Section Sort.
Context (d : list R).
Let le (i j : nat) : Prop := (nth i d 0 <= nth j d 0)%R.
Lemma insert_by_perm i l : Permutation (insert_by d i l) (i :: l).
Proof. induction l as [|j l IH]; cbn; [reflexivity|]. destruct (Rle_dec _ _); [reflexivity|]. rewrite IH. apply perm_swap. Qed.
Lemma insert_by_sorted i l : StronglySorted le l -> StronglySorted le (insert_by d i l).
Proof.
  induction 1 as [|j l S IH F]; cbn; [repeat constructor|]. destruct (Rle_dec (nth i d 0%R) (nth j d 0%R)) as [H|H].
  - constructor; [now constructor|]. constructor; [exact H|]. eapply Forall_impl; [|exact F]. unfold le. intros k Hk. cbn in Hk. lra.
  - constructor; [exact IH|]. eapply Permutation_Forall; [symmetry; apply insert_by_perm|]. constructor; [unfold le; lra|exact F].
Qed.
Lemma argsort_perm : Permutation (argsort d) (seq 0 (List.length d)).
Proof. unfold argsort. induction (seq 0 (List.length d)) as [|i l IH]; cbn; [reflexivity|]. now rewrite insert_by_perm, IH. Qed.
Lemma argsort_sorted : StronglySorted le (argsort d).
Proof. unfold argsort. induction (seq 0 (List.length d)) as [|i l IH]; cbn; [constructor|]. now apply insert_by_sorted. Qed.
Lemma sorted_split {A} (P : A -> A -> Prop) a b : StronglySorted P (a ++ b) -> StronglySorted P a /\ forall x y, In x a -> In y b -> P x y.
Proof.
  induction a as [|x a IH]; cbn; intros H; [split; [constructor|intros ? ? []]|]. inversion H as [|? ? S F]; subst. destruct (IH S) as [I1 I2]. rewrite Forall_app in F. destruct F as [F1 F2].
  split; [now constructor|]. intros u v [<-|Hu] Hv; [|auto]. rewrite Forall_forall in F2. auto.
Qed.
Lemma smallest_spec n : (0 <= n <= Z.of_nat (List.length d))%Z -> exists idx, smallest d n = Ok idx /\ NoDup idx /\
  Forall (fun i => i < List.length d) idx /\ n_smallest (Z.to_nat n) d (map (fun i => nth i d 0%R) idx).
Proof.
  intros H. unfold smallest. destruct (Z.ltb_spec n 0); [lia|]. destruct (Z.ltb_spec (Z.of_nat (List.length d)) n); [lia|]. cbn [orb].
  set (A := argsort d). set (k := Z.to_nat n). exists (firstn k A). split; [reflexivity|].
  pose proof argsort_perm as P. fold A in P. pose proof argsort_sorted as S. fold A in S.
  rewrite <- (firstn_skipn k A) in S. apply sorted_split in S. destruct S as [S1 S2].
  assert (LA : List.length A = List.length d) by (rewrite (Permutation_length P); apply seq_length).
  assert (Nd : NoDup A) by (eapply Permutation_NoDup; [symmetry; exact P|apply seq_NoDup]).
  split. { rewrite <- (firstn_skipn k A) in Nd. clear - Nd. revert Nd. generalize (firstn k A), (skipn k A). intros a b. induction a as [|x a IH]; cbn; intros H; [constructor|]. inversion H; subst. constructor; [|auto]. intros C. apply H2. apply in_or_app. auto. }
  split. { rewrite Forall_forall. intros i Hi. assert (In i A) by (rewrite <- (firstn_skipn k A); apply in_or_app; auto). apply (Permutation_in _ P), in_seq in H2. lia. }
  split; [rewrite map_length, firstn_length; lia|]. split.
  - clear - S1. induction S1 as [|i l S IH F]; cbn; constructor; [exact IH|]. rewrite Forall_map. eapply Forall_impl; [|exact F]. auto.
  - exists (map (fun i => nth i d 0%R) (skipn k A)). split.
    + rewrite <- map_app, firstn_skipn, (Permutation_map _ P). now rewrite map_nth_seq.
    + intros x y Hx Hy. apply in_map_iff in Hx. destruct Hx as (i & <- & Hi). apply in_map_iff in Hy. destruct Hy as (j & <- & Hj). now apply S2.
Qed.
Lemma smallest_raises n : ~ (0 <= n <= Z.of_nat (List.length d))%Z -> smallest d n = Err ValueError.
Proof. intros H. unfold smallest. destruct (Z.ltb_spec n 0); [reflexivity|]. destruct (Z.ltb_spec (Z.of_nat (List.length d)) n); [reflexivity|lia]. Qed.
End Sort.

Lemma n_smallest_perm n d d' l : Permutation d d' -> n_smallest n d l -> n_smallest n d' l.
Proof. intros P (A & B & r & C & D). split; [exact A|]. split; [exact B|]. exists r. split; [now rewrite C|exact D]. Qed.
Lemma n_smallest_ge n d l x : n_smallest n d l -> 1 <= n -> (Forall (fun y => (x <= y)%R) l <-> Forall (fun y => (x <= y)%R) d).
Proof.
  intros (A & B & r & C & D) Hn.
  assert (G : Forall (fun y => (x <= y)%R) d <-> Forall (fun y => (x <= y)%R) (l ++ r)) by (split; apply Permutation_Forall; [now symmetry|exact C]).
  rewrite G, Forall_app. split; [|tauto]. intros H. split; [exact H|].
  destruct l as [|y l]; [cbn in A; lia|]. rewrite Forall_forall. intros z Hz. inversion H; subst. specialize (D y z (or_introl eq_refl) Hz). lra.
Qed.

(** ** Histories of a self-collision barrier *)
Lemma ok_history_with (Q : mjmodel -> Prop) (P : attrs -> Prop) os c :
  Forall (call_with Q) os -> binds_ok os c -> P (c_at c) ->
  (forall a a', P a -> astep a a' -> P a') ->
  (forall c m, Q m -> fst (update_model m c) = Ok tt -> P (c_at c) -> P (c_at (snd (update_model m c)))) ->
  P (c_at (history os c)).
Proof.
  intros Ho Hb Hp Hs Hm. revert c Hb Hp. induction Ho as [|o os Ha _ IH]; intros c Hb Hp; [exact Hp|].
  cbn in Hb. destruct Hb as [Hb0 Hb]. cbn. apply IH; [exact Hb|].
  assert (G : api_op o -> asteps (c_at c) (c_at (after o c)) -> P (c_at (after o c))).
  { intros _ H. eapply asteps_inv; eauto. }
  destruct o; try (apply G; [exact I|apply api_steps; [exact I|intros; discriminate]]).
  - unfold after. cbn [run_cop]. apply Hm; [exact Ha|exact Hb0|exact Hp].
  - destruct Ha.
Qed.

Section Pairs.
Context (m : mjmodel) (Hw : wf_bodies m).
Lemma np_idx_some {A} (l : list A) i x : np_idx l i = Ok x -> exists k, (k < List.length l) /\ nth_error l k = Some x /\ (i = Z.of_nat k \/ i = (Z.of_nat k - Z.of_nat (List.length l))%Z).
Proof.
  unfold np_idx. destruct (Z.ltb_spec i 0).
  - destruct (Z.ltb_spec (i + Z.of_nat (List.length l)) 0); [discriminate|]. destruct (Z.leb_spec (Z.of_nat (List.length l)) (i + Z.of_nat (List.length l))); [discriminate|]. cbn [orb].
    destruct (nth_error l _) eqn:E; [|discriminate]. intros Hx. injection Hx as <-. eexists. split; [apply nth_error_Some; rewrite E; discriminate|]. split; [exact E|]. right. lia.
  - destruct (Z.ltb_spec i 0); [lia|]. destruct (Z.leb_spec (Z.of_nat (List.length l)) i); [discriminate|]. cbn [orb].
    destruct (nth_error l _) eqn:E; [|discriminate]. intros Hx. injection Hx as <-. eexists. split; [apply nth_error_Some; rewrite E; discriminate|]. split; [exact E|]. left. lia.
Qed.
Lemma body_geoms_are b gs : body_geoms m b = Ok gs -> Forall (is_geom m) gs.
Proof.
  destruct Hw as (_ & _ & L3 & L4 & _ & _ & _ & Hg). unfold body_geoms. destruct (np_idx (m_body_geomadr m) b) as [s|] eqn:E1; [|discriminate]. destruct (np_idx (m_body_geomnum m) b) as [n|] eqn:E2; [|discriminate].
  cbn [bind]. intros H. injection H as <-. destruct (np_idx_some _ _ _ E1) as (k & Hk & Nk & Bk). destruct (np_idx_some _ _ _ E2) as (k' & Hk' & Nk' & Bk').
  assert (k' = k) as -> by lia. rewrite Forall_forall. intros g Hgin. unfold zrange in Hgin. apply in_map_iff in Hgin. destruct Hgin as (i & <- & Hi). apply in_seq in Hi.
  assert (B : is_body m (Z.of_nat k)) by (unfold is_body; lia). apply (Hg (Z.of_nat k) (s + Z.of_nat i)%Z B). unfold ent. rewrite Nat2Z.id. rewrite (nth_error_nth _ _ 0%Z Nk), (nth_error_nth _ _ 0%Z Nk'). lia.
Qed.
Lemma set_add_pairs g1 g2 acc : is_geom m g1 -> is_geom m g2 -> Forall (geom_pair m) acc -> Forall (geom_pair m) (set_add (sorted_pair g1 g2) acc).
Proof.
  intros H1 H2 H. rewrite Forall_forall in *. intros p Hp. apply set_add_in in Hp. destruct Hp as [->|Hp]; [|auto]. unfold geom_pair, sorted_pair, is_geom in *. cbn. lia.
Qed.
Lemma add_geoms2_pairs g1 gs2 : is_geom m g1 -> Forall (is_geom m) gs2 -> forall acc acc', Forall (geom_pair m) acc -> add_geoms2 m g1 gs2 acc = Ok acc' -> Forall (geom_pair m) acc'.
Proof.
  intros H1. induction 1 as [|g2 gs2 Hg _ IH]; intros acc acc' Ha; cbn [add_geoms2]; [now intros H; injection H as <-|].
  destruct (validate_geom_pair m g1 g2) as [v|]; [|discriminate]. cbn [bind]. apply IH. destruct v; [now apply set_add_pairs|exact Ha].
Qed.
Lemma add_geoms1_pairs gs1 gs2 : Forall (is_geom m) gs1 -> Forall (is_geom m) gs2 -> forall acc acc', Forall (geom_pair m) acc -> add_geoms1 m gs1 gs2 acc = Ok acc' -> Forall (geom_pair m) acc'.
Proof.
  intros H1 H2. induction H1 as [|g1 gs1 Hg _ IH]; intros acc acc' Ha; cbn [add_geoms1]; [now intros H; injection H as <-|].
  destruct (add_geoms2 m g1 gs2 acc) as [acc1|] eqn:E; [|discriminate]. cbn [bind]. apply IH. eapply add_geoms2_pairs; eauto.
Qed.
Lemma add_body_pair_pairs excl x y acc acc' : Forall (geom_pair m) acc -> add_body_pair m excl x y acc = Ok acc' -> Forall (geom_pair m) acc'.
Proof.
  intros Ha. unfold add_body_pair. destruct (body2id m x) as [b1|]; [|discriminate]. destruct (body2id m y) as [b2|]; [|discriminate]. cbn [bind].
  destruct (b1 =? b2)%Z; [now intros H; injection H as <-|]. destruct (zpair_mem _ _); [now intros H; injection H as <-|].
  destruct (validate_body_pair m b1 b2) as [v|]; [|discriminate]. cbn [bind]. destruct (negb v); [now intros H; injection H as <-|].
  destruct (body_geoms m b1) as [g1|] eqn:E1; [|discriminate]. destruct (body_geoms m b2) as [g2|] eqn:E2; [|discriminate]. cbn [bind].
  apply add_geoms1_pairs; eauto using body_geoms_are.
Qed.
Lemma add_body_with_pairs excl x ys : forall acc acc', Forall (geom_pair m) acc -> add_body_with m excl x ys acc = Ok acc' -> Forall (geom_pair m) acc'.
Proof.
  induction ys as [|y ys IH]; intros acc acc' Ha; cbn [add_body_with]; [now intros H; injection H as <-|].
  destruct (add_body_pair m excl x y acc) as [acc1|] eqn:E; [|discriminate]. cbn [bind]. apply IH. eapply add_body_pair_pairs; eauto.
Qed.
Lemma generated_pairs excl bs : forall acc acc', Forall (geom_pair m) acc -> add_all_bodies m excl bs acc = Ok acc' -> Forall (geom_pair m) acc'.
Proof.
  induction bs as [|x bs IH]; intros acc acc' Ha; cbn [add_all_bodies]; [now intros H; injection H as <-|].
  destruct (add_body_with m excl x bs acc) as [acc1|] eqn:E; [|discriminate]. cbn [bind]. apply IH. eapply add_body_with_pairs; eauto.
Qed.
End Pairs.

(** What a self-collision barrier holds. *)
Definition self_unbound (dm : R) (n0 : Z) (a : attrs) : Prop :=
  a_model a = None /\ a_dim a = (-1)%Z /\ exists sdg bs er ex ps, a_ext a = XBarrier sdg (BSelf (mkSC dm bs er ex ps n0)).
Definition self_bound (Q : mjmodel -> Prop) (dm : R) (n0 : Z) (a : attrs) : Prop :=
  exists m sdg bs er ex ps n, a_ext a = XBarrier sdg (BSelf (mkSC dm bs er ex (Some ps) n)) /\ a_model a = Some m /\ Q m /\
    Forall (geom_pair m) ps /\ a_dim a = n /\ n <> (-1)%Z /\ (n0 <> (-1)%Z -> n = n0).
Definition self_state Q dm n0 a : Prop := self_unbound dm n0 a \/ self_bound Q dm n0 a.
Lemma self_step a a' sdg s : a_ext a = XBarrier sdg (BSelf s) -> astep a a' -> a_ext a' = a_ext a /\ a_dim a' = a_dim a /\ a_model a' = a_model a.
Proof.
  intros He Hs. destruct Hs; try (rewrite He in *; discriminate); cbn; auto.
  destruct (forced_other _ _ H) as (h1 & h2 & h3 & h4 & h5 & h6). auto.
Qed.
Lemma self_steps a a' sdg s : asteps a a' -> a_ext a = XBarrier sdg (BSelf s) -> a_ext a' = a_ext a /\ a_dim a' = a_dim a /\ a_model a' = a_model a.
Proof.
  intros H. induction H as [x y H|x|x y z H1 IH1 H2 IH2]; intros He; [eapply self_step; eauto|auto|].
  destruct (IH1 He) as (A & B & C). rewrite <- A in He. destruct (IH2 He) as (A' & B' & C'). rewrite A', B', C'. auto.
Qed.
Lemma self_state_step Q dm n0 a a' : self_state Q dm n0 a -> astep a a' -> self_state Q dm n0 a'.
Proof.
  intros [(A & B & sdg & bs & er & ex & ps & E)|(m & sdg & bs & er & ex & ps & n & E & H)] Hs; destruct (self_step _ _ _ _ E Hs) as (X & Y & Z).
  - left. unfold self_unbound. rewrite X, Y, Z. eauto 9.
  - right. unfold self_bound. rewrite X, Y, Z. eauto 12.
Qed.
Lemma self_state_bind (Q : mjmodel -> Prop) dm n0 c m : (forall m, Q m -> wf_bodies m) -> Q m -> fst (update_model m c) = Ok tt ->
  self_state Q dm n0 (c_at c) -> self_bound Q dm n0 (c_at (snd (update_model m c))).
Proof.
  intros HQ Hq Hu H.
  assert (E : exists sdg bs er ex ps n, a_ext (c_at c) = XBarrier sdg (BSelf (mkSC dm bs er ex ps n)) /\ (n0 <> (-1)%Z -> n = n0)).
  { destruct H as [(A & B & sdg & bs & er & ex & ps & E)|(m' & sdg & bs & er & ex & ps & n & E & _ & _ & _ & _ & _ & N)]; eauto 10. }
  destruct E as (sdg & bs & er & ex & ps & n & E & N). destruct (self_bind_ok m c sdg _ E Hu) as (ex' & ps' & _ & G & U). rewrite U. cbn [sc_n sc_dmin sc_bodies sc_excl_raw] in *.
  unfold self_bound, set_self. cbn [snd c_at a_ext a_model a_dim set_a_dim set_a_ext set_a_model].
  exists m, sdg, (listed m bs), er, (Some ex'), ps', (if (n =? -1)%Z then Z.of_nat (List.length ps') else n).
  split; [reflexivity|]. split; [reflexivity|]. split; [exact Hq|]. split; [eapply generated_pairs; [apply HQ; exact Hq|constructor|exact G]|]. split; [reflexivity|].
  destruct (Z.eqb_spec n (-1)); split; [lia|intros; lia|assumption|]. intros Hn. specialize (N Hn). lia.
Qed.
Lemma self_state_new Q name gain gf sdg dm bs er n c : new_self_collision name gain gf sdg dm bs er n = Ok c -> self_state Q dm n (c_at c).
Proof.
  intros H. left. pose proof (self_new _ _ _ _ _ _ _ _ _ H) as E. unfold new_self_collision, init_barrier in H. destruct (init_component name gain gf None _) as [a'|] eqn:E'; [|discriminate].
  injection H as <-. destruct (init_comp_mask _ _ _ _ _ _ E') as (_ & _ & M & _ & D & _). cbn in *. unfold self_unbound. eauto 9.
Qed.
Lemma self_state_history (Q : mjmodel -> Prop) name gain gf sdg dm bs er n c os : (forall m, Q m -> wf_bodies m) -> new_self_collision name gain gf sdg dm bs er n = Ok c ->
  Forall (call_with Q) os -> binds_ok os c -> self_state Q dm n (c_at (history os c)).
Proof.
  intros HQ Hn Ho Hb. eapply ok_history_with; eauto.
  - eapply self_state_new; exact Hn.
  - intros; eapply self_state_step; eauto.
  - intros; right; eapply self_state_bind; eauto.
Qed.

Definition self_facts (dm : R) (n0 : Z) (j : jaxc) : Prop :=
  wf_collision (j_model j) /\ (0 <= j_dim j)%Z /\ (n0 <> (-1)%Z -> j_dim j = n0) /\
  exists sdg ps, j_ext j = JBarrier sdg (JBSelf (repeat dm (Z.to_nat (j_dim j))) ps (j_dim j)) /\ Forall (geom_pair (j_model j)) ps.
Lemma published_reachable c0 os j : constructed c0 -> compiles (history os c0) j -> published (history os c0) j.
Proof. intros H Hj. apply availability in Hj; [exact Hj|]. now exists c0, os. Qed.
Lemma self_barrier_facts dm n0 j : self_barrier dm n0 j -> self_facts dm n0 j.
Proof.
  intros (name & gain & gf & sdg & bs & er & c & os & Hn & Ho & Hb & Hj).
  apply published_reachable in Hj; [|eapply made_self_collision; exact Hn]. destruct Hj as (P1 & P2 & P3 & _ & _ & _ & P7).
  destruct (self_state_history wf_collision _ _ _ _ _ _ _ _ _ _ (fun m H => proj1 H) Hn Ho Hb) as [(A & _)|(m & sdg' & bs' & er' & ex & ps & n & E & M & Q & F & D & N & N0)]; [congruence|].
  rewrite M in P3. injection P3 as P3. inversion P7; try congruence. rewrite E in H0. injection H0 as <- <- <- <- <- <- <-.
  unfold self_facts. rewrite <- P3. split; [exact Q|]. rewrite P2. split; [exact H1|]. split; [now rewrite D|]. exists sdg', ps. split; [now rewrite <- H, D|exact F].
Qed.

(** The value of the barrier. *)
Lemma bc2_const f (l : list R) x : bc2 f l (repeat x (List.length l)) = Ok (map (fun y => f y x) l).
Proof.
  unfold bc2. rewrite repeat_length, Nat.eqb_refl. f_equal. induction l as [|y l IH]; cbn; [reflexivity|]. now rewrite IH.
Qed.
Lemma self_value L dm n0 j d ps : self_barrier dm n0 j -> checked_pairs j ps -> full_table (l_coll L) (j_model j) ps ->
  exists l, all_contacts L (j_model j) d ps l /\
    ((j_dim j <= Z.of_nat (List.length l))%Z -> exists s, n_smallest (Z.to_nat (j_dim j)) (distances_of l) s /\ call L j d = Ok (map (fun x => (x - dm)%R) s)) /\
    ((Z.of_nat (List.length l) < j_dim j)%Z -> call L j d = Err ValueError).
Proof.
  intros Hj (sdg & dv & n & E) HT. destruct (self_barrier_facts _ _ _ Hj) as ((Wb & Wg) & D0 & _ & sdg' & ps' & E' & Fp). rewrite E in E'. injection E' as <- -> <- ->.
  destruct (contacts_attached (l_coll L) (j_model j) d ps Wg Fp HT) as (cs & l & rs & Ec & Sb & Rs & P & _). exists (List.concat rs). split; [exists rs; auto|].
  inversion Sb; subst l0 cs. unfold call. rewrite E. unfold call_self. rewrite Ec. cbn [bind cs_dist].
  assert (PD : Permutation (map (fun x => ct_dist (snd x)) l) (distances_of (List.concat rs))) by (now apply Permutation_map).
  assert (LD : List.length (map (fun x => ct_dist (snd x)) l) = List.length (List.concat rs)) by (rewrite map_length; now apply Permutation_length). split.
  - intros Hl. destruct (smallest_spec (map (fun x => ct_dist (snd x)) l) (j_dim j)) as (idx & Es & _ & _ & S); [lia|].
    rewrite Es. cbn [bind]. eexists. split; [eapply n_smallest_perm; [exact PD|exact S]|]. destruct S as [S _]. rewrite <- S at 1. apply bc2_const.
  - intros Hl. rewrite smallest_raises by lia. reflexivity.
Qed.
Lemma distances_length l : List.length (distances_of l) = List.length l. Proof. apply map_length. Qed.
Lemma all_contacts_fun L m d ps l l' : all_contacts L m d ps l -> all_contacts L m d ps l' -> l = l'.
Proof.
  intros (rs & H & ->) (rs' & H' & ->). f_equal. revert rs' H'. induction H as [|p r qs rs Hr _ IH]; intros rs' H'; inversion H' as [|? r' ? rs2 Hr' H2']; subst; [reflexivity|].
  f_equal; [|auto]. destruct Hr as (n & f & k & K & T & _ & _ & ->). destruct Hr' as (n' & f' & k' & K' & T' & _ & _ & ->).
  apply key_describes_iff in K. apply key_describes_iff in K'. subst. rewrite T in T'. injection T' as <- <-. reflexivity.
Qed.
Lemma self_nonneg L dm n0 j d ps l h : self_barrier dm n0 j -> checked_pairs j ps -> full_table (l_coll L) (j_model j) ps ->
  all_contacts L (j_model j) d ps l -> (1 <= j_dim j)%Z -> call L j d = Ok h ->
  (Forall (fun x => (0 <= x)%R) h <-> Forall (fun x => (dm <= x)%R) (distances_of l)).
Proof.
  intros Hj Hp HT Hl Hd Hc. destruct (self_value L dm n0 j d ps Hj Hp HT) as (l' & Hl' & V1 & V2). rewrite <- (all_contacts_fun _ _ _ _ _ _ Hl Hl') in *.
  destruct (Z_lt_le_dec (Z.of_nat (List.length l)) (j_dim j)) as [H|H]; [rewrite (V2 H) in Hc; discriminate|]. destruct (V1 H) as (s & S & E). rewrite E in Hc. injection Hc as <-.
  rewrite <- (n_smallest_ge _ _ _ dm S) by lia. rewrite Forall_map. split; intros F; (eapply Forall_impl; [|exact F]); cbn; intros; lra.
Qed.
Lemma no_bind_steps os : Forall no_bind os -> forall c, asteps (c_at c) (c_at (history os c)).
Proof.
  induction 1 as [|o os Ho _ IH]; intros c; [apply asteps_refl|]. cbn. eapply asteps_trans; [|apply IH]. apply api_steps; destruct o; try exact I; try destruct Ho; intros; discriminate.
Qed.
Lemma history_app os1 os2 c : history (os1 ++ os2) c = history os2 (history os1 c).
Proof. unfold history. now rewrite fold_left_app. Qed.
Lemma binds_app os1 os2 c : binds_ok (os1 ++ os2) c -> binds_ok os2 (history os1 c).
Proof. revert c. induction os1 as [|o os1 IH]; intros c; cbn; [auto|]. intros [_ H]. now apply IH. Qed.
Lemma self_all_pairs dm j ps : self_barrier_bound_once dm (-1) j -> checked_pairs j ps -> j_dim j = Z.of_nat (List.length ps).
Proof.
  intros (name & gain & gf & sdg & bs & er & c & os1 & m & os2 & Hn & Hw & H1 & H2 & Hb & Hj) (sdg' & dv & n & E).
  apply published_reachable in Hj; [|eapply made_self_collision; exact Hn]. destruct Hj as (P1 & P2 & P3 & _ & _ & _ & P7).
  rewrite history_app in *. cbn [history fold_left] in *. pose proof (self_new _ _ _ _ _ _ _ _ _ Hn) as E0.
  apply binds_app in Hb. cbn [binds_ok] in Hb. destruct Hb as [Hb _].
  destruct (self_steps _ _ _ _ (no_bind_steps os1 H1 c) E0) as (A1 & _). rewrite E0 in A1.
  destruct (self_bind_ok m _ _ _ A1 Hb) as (ex & ps' & _ & _ & U). set (c2 := after (OpModel m) (history os1 c)) in *.
  assert (E2 : c_at c2 = c_at (snd (update_model m (history os1 c)))) by reflexivity. rewrite U in E2. cbn in E2.
  assert (A2 : a_ext (c_at c2) = XBarrier sdg (BSelf (mkSC dm (listed m bs) er (Some ex) (Some ps') (Z.of_nat (List.length ps'))))) by (rewrite E2; reflexivity).
  destruct (self_steps _ _ _ _ (no_bind_steps os2 H2 c2) A2) as (A3 & A4 & _). rewrite A2 in A3.
  fold c2 in P7. change (fold_left (fun c0 o => after o c0) os2 c2) with (history os2 c2) in *.
  rewrite P2. rewrite E in P7. inversion P7 as [| | | | | | |? dm' bs' er' ex' ps2 n' Ee Hd | | |]; subst. rewrite A3 in Ee. injection Ee as <- <- <- <- <- <- <-.
  change (a_dim (c_at (history os2 c2)) = Z.of_nat (List.length ps')). rewrite A4, E2. reflexivity.
Qed.
