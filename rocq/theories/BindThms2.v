(** Lemmas behind PropsBinding: objects, limits, frames, collision pairs, equalities. *)
From Verif Require Import Base Lin LinFacts Mjx Typing Component SpecComponent SpecJoint SpecHistory SpecTyping SpecCollision Witness.
From Verif Require Import ComponentFacts ComponentFacts2 ApiSteps JointFacts BindFacts BindFacts2 BindFacts3 CoreFacts CollisionPairs ProblemFacts CompThms CompThms2.
From Coq Require Import Ascii.
Open Scope nat_scope.
#[local] Arguments update_model : simpl never.
#[local] Arguments jax_component : simpl never.

(** *** C27 *)
Lemma masks_depend c c' : a_mask (c_at c') = a_mask (c_at c) -> a_dim (c_at c') = a_dim (c_at c) -> a_mask_idxs (c_at c') = a_mask_idxs (c_at c) ->
  fst (mask c') = fst (mask c) /\ fst (mask_idxs c') = fst (mask_idxs c).
Proof.
  intros H1 H2 H3. rewrite !mask_fst, !mask_idxs_fst. unfold forced, get_default_mask, dim. rewrite H1, H2.
  destruct (a_mask (c_at c)) eqn:Em; cbn [bind].
  - rewrite H1, H3, Em. split; reflexivity.
  - destruct (a_dim (c_at c) =? -1)%Z; [split; reflexivity|]. cbn [bind]. destruct (zsize (a_dim (c_at c))); split; reflexivity.
Qed.
Definition task_of (c : comp) := object_of (c_at c).
Definition bound_pos : comp := snd (update_model arm2 demo_task).
Lemma failed_rebind_task : exists name cost gain on ty gf lm mk c m1 m2 o j1 j2,
  new_position_task name cost gain on ty gf lm mk = Ok c /\ wf_names m1 /\ wf_names m2 /\
  fst (update_model m1 c) = Ok tt /\ object_of (c_at (snd (update_model m1 c))) = Some o /\
  compiles (snd (update_model m1 c)) j1 /\
  fst (update_model m2 (snd (update_model m1 c))) = Err ValueError /\
  object_of (c_at (snd (update_model m2 (snd (update_model m1 c))))) <> Some o /\
  compiles (snd (update_model m2 (snd (update_model m1 c)))) j2 /\ j_model j2 = j_model j1 /\
  (forall W lm' i ty' t, j_ext j2 = JTask W lm' (JTPos i ty' t) -> i = (-1)%Z).
Proof.
  exists "reach"%string, (tscalar 1), (tscalar 1), "tip"%string, OBody, None, 0%R, None.
  exists (mkC (mkA "reach" None (tscalar 1) (fun x => x) 3 None []
     (XTask (tscalar 1) 0%R (TPos (mkO "tip" OBody (-1)) (tvec (vzero 3))))) true None).
  exists arm2, (with_names arm2 []). do 3 eexists.
  split; [unfold new_position_task, init_task; cbn; rewrite not_neg0; reflexivity|].
  split; [apply chain_names|]. split; [split; cbn; tauto|].
  split; [reflexivity|]. split; [reflexivity|]. split; [vm_compute; reflexivity|]. split; [reflexivity|]. split; [discriminate|].
  split; [vm_compute; reflexivity|]. split; [reflexivity|]. intros W lm' i ty' t H. injection H. intros. now subst.
Qed.
(** What a failed binding does: only the object id is lost; a barrier then cannot
    be compiled until it is bound to a model that has the object. *)
Lemma failed_rebind m c o : wf_names m -> object_of (c_at c) = Some o -> (forall i, ~ has_object m (ob_type o) (ob_name o) i) ->
  let c' := snd (update_model m c) in
  fst (update_model m c) = Err ValueError /\
  object_of (c_at c') = Some (mkO (ob_name o) (ob_type o) (-1)) /\
  a_model (c_at c') = a_model (c_at c) /\ a_gain (c_at c') = a_gain (c_at c) /\ a_dim (c_at c') = a_dim (c_at c) /\
  fst (mask c') = fst (mask c) /\ fst (mask_idxs c') = fst (mask_idxs c).
Proof.
  intros Hw Ho Hn. cbn zeta. rewrite (obj_bind m c o Ho).
  assert (E : name2id m (ob_type o) (ob_name o) = (-1)%Z).
  { destruct (Z.eq_dec (name2id m (ob_type o) (ob_name o)) (-1)) as [E|E]; [exact E|]. exfalso.
    apply (Hn (name2id m (ob_type o) (ob_name o))). apply name2id_spec; auto. }
  rewrite E. change ((-1) =? -1)%Z with true. cbn [fst snd c_at].
  destruct (set_obj_id_other (c_at c) (-1)) as (h1 & h2 & h3 & h4 & h5 & h6 & h7).
  split; [reflexivity|]. split; [now apply object_set_id|]. split; [exact h2|]. split; [exact h3|]. split; [exact h5|].
  now apply masks_depend.
Qed.
Lemma failed_rebind_barrier m c o : wf_names m -> object_of (c_at c) = Some o -> (forall i, ~ has_object m (ob_type o) (ob_name o) i) ->
  reachable c -> (exists s p, a_ext (c_at c) = XBarrier s (BPos p)) -> forall j, ~ compiles (snd (update_model m c)) j.
Proof.
  intros Hw Ho Hn (c0 & os & H0 & ->) (s & p & He) j Hj.
  destruct (failed_rebind m _ o Hw Ho Hn) as (_ & A & _).
  assert (R : reachable (snd (update_model m (history os c0)))).
  { exists c0, (os ++ [OpModel m]). split; [exact H0|]. unfold history. now rewrite fold_left_app. }
  apply availability in Hj; [|exact R]. destruct Hj as (_ & _ & _ & _ & _ & _ & Hp).
  assert (He' : exists q, a_ext (c_at (snd (update_model m (history os c0)))) = XBarrier s (BPos q)).
  { rewrite (obj_bind m _ o Ho). destruct (_ =? -1)%Z; cbn [snd c_at]; unfold set_obj_id; rewrite He; cbn; eauto. }
  destruct He' as (q & He'). unfold object_of in A. rewrite He' in A. injection A as A.
  inversion Hp; try congruence.
  match goal with X : a_ext _ = XBarrier _ (BPos (mkPB ?o' _ _ _ _)), Y : ob_id ?o' <> _ |- _ =>
    rewrite He' in X; injection X as X1 X2; subst q; cbn in A; rewrite A in Y; apply Y; reflexivity end.
Qed.

(** *** C30 *)
Lemma pbar_history name gain on ty lo hi lts gf sdg mk c os : new_position_barrier name gain on ty lo hi lts gf sdg mk = Ok c ->
  Forall api_op os -> exists lt, from_str lts = Ok lt /\
  pbar_inv (match mk with Some k => mk_data k | None => [1%Z; 1%Z; 1%Z] end) on ty sdg lt (c_at (history os c)).
Proof.
  intros Hn Ho. destruct (pbar_inv_new _ _ _ _ _ _ _ _ _ _ _ Hn) as (lt & H1 & H2). exists lt. split; [exact H1|].
  apply (api_history (pbar_inv _ on ty sdg lt)); auto.
  - intros; eapply pbar_inv_step; eauto.
  - intros; now apply pbar_inv_bind.
Qed.
Lemma argwhere_length l : List.length (argwhere l) = List.length (filter (fun x => negb (x =? 0)%Z) l).
Proof.
  unfold argwhere. rewrite map_length. generalize 0. induction l as [|x l IH]; intros k; [reflexivity|]. cbn.
  destruct (negb (x =? 0)%Z); cbn; rewrite IH; reflexivity.
Qed.
Lemma limit_updates name gain on ty lo hi lts gf sdg mk c os t : new_position_barrier name gain on ty lo hi lts gf sdg mk = Ok c ->
  Forall api_op os -> wf_tensor t ->
  let c' := history os c in let n := n_axes mk in
  exists lt l h, from_str lts = Ok lt /\ p_limits c' l h /\
  (forall t', limit_value n t t' ->
     fst (update_p_min t c') = Ok tt /\
     (if includes_min lt then p_limits (snd (update_p_min t c')) t' h else snd (update_p_min t c') = c') /\
     fst (update_p_max t c') = Ok tt /\
     (if includes_max lt then p_limits (snd (update_p_max t c')) l t' else snd (update_p_max t c') = c')) /\
  (ndim t <> 0 -> last_dim t <> Ok n -> update_p_min t c' = (Err ValueError, c') /\ update_p_max t c' = (Err ValueError, c')).
Proof.
  intros Hn Ho Ht. cbn zeta. destruct (pbar_history _ _ _ _ _ _ _ _ _ _ _ os Hn Ho) as (lt & Hlt & Hd & (Hm & Hi) & i & l & h & He & Hl & Hh).
  exists lt, l, h. split; [exact Hlt|]. split; [do 2 eexists; split; [exact He|split; reflexivity]|].
  assert (En : List.length (a_mask_idxs (c_at (history os c))) = n_axes mk) by (rewrite Hi; apply argwhere_length).
  destruct (set_p_min t _ _ _ _ Ht He Hm) as [A1 A2]. destruct (set_p_max t _ _ _ _ Ht He Hm) as [B1 B2]. rewrite En in *. split.
  - intros t' L. rewrite (A1 _ L), (B1 _ L). cbn [fst snd pb_lt]. split; [reflexivity|]. split; [|split; [reflexivity|]].
    + destruct (includes_min lt); [|reflexivity]. do 2 eexists. split; [reflexivity|split; reflexivity].
    + destruct (includes_max lt); [|reflexivity]. do 2 eexists. split; [reflexivity|split; reflexivity].
  - intros N1 N2. split; [now apply A2|now apply B2].
Qed.
Lemma stored_limits_shape name gain on ty lo hi lts gf sdg mk c os : new_position_barrier name gain on ty lo hi lts gf sdg mk = Ok c ->
  Forall api_op os -> exists l h, p_limits (history os c) l h /\ last_dim l = Ok (n_axes mk) /\ last_dim h = Ok (n_axes mk).
Proof.
  intros Hn Ho. destruct (pbar_history _ _ _ _ _ _ _ _ _ _ _ os Hn Ho) as (lt & Hlt & Hd & (Hm & Hi) & i & l & h & He & Hl & Hh).
  exists l, h. split; [do 2 eexists; split; [exact He|split; reflexivity]|]. rewrite argwhere_length in Hl, Hh. now split.
Qed.

(** *** C31 *)
Lemma letter_forms a : (Nat.leb 65 (nat_of_ascii a) && Nat.leb (nat_of_ascii a) 90)%bool = true ->
  String.get (nat_of_ascii a - 65) letters_upper = Some a /\
  String.get (nat_of_ascii a - 65) letters_lower = Some (ascii_of_nat (nat_of_ascii a + 32)).
Proof. destruct a as [[] [] [] [] [] [] [] []]; intros H; vm_compute in H; try discriminate; split; reflexivity. Qed.
Lemma same_letter_lower a b : same_letter a b <-> lower_ascii a = lower_ascii b.
Proof.
  split.
  - intros [->|(k & H)]; [reflexivity|].
    assert (Hk : k < 26).
    { destruct (Nat.ltb_spec k 26); [assumption|]. exfalso.
      assert (N : String.get k letters_upper = None /\ String.get k letters_lower = None).
      { do 26 (destruct k as [|k]; [lia|]). split; cbn; destruct k; reflexivity. }
      destruct N as [N1 N2]. rewrite N1, N2 in H. destruct H as [[? ?]|[? ?]]; discriminate. }
    do 26 (destruct k as [|k]; [cbn in H; destruct H as [[H1 H2]|[H1 H2]]; injection H1 as <-; injection H2 as <-; reflexivity|]). lia.
  - intros H. unfold lower_ascii in H.
    assert (Hdec : forall c : ascii, {c = ascii_of_nat (nat_of_ascii c)} + {False}) by (intros c; left; now rewrite ascii_nat_embedding).
    assert (Ha := nat_ascii_bounded a). assert (Hb := nat_ascii_bounded b).
    destruct (Nat.leb 65 (nat_of_ascii a) && Nat.leb (nat_of_ascii a) 90)%bool eqn:Ea;
    destruct (Nat.leb 65 (nat_of_ascii b) && Nat.leb (nat_of_ascii b) 90)%bool eqn:Eb.
    + left. apply andb_prop in Ea, Eb. destruct Ea as [Ea1 Ea2], Eb as [Eb1 Eb2]. apply Nat.leb_le in Ea1, Ea2, Eb1, Eb2.
      apply (f_equal nat_of_ascii) in H. rewrite !nat_ascii_embedding in H by lia.
      rewrite <- (ascii_nat_embedding a), <- (ascii_nat_embedding b). f_equal. lia.
    + right. exists (nat_of_ascii a - 65). left. subst b. now apply letter_forms.
    + right. exists (nat_of_ascii b - 65). right. subst a. apply letter_forms in Eb. now destruct Eb.
    + now left.
Qed.
Lemma same_word_lower s t : same_word s t <-> lower s = lower t.
Proof.
  split.
  - induction 1 as [|a b s t H _ IH]; [reflexivity|]. cbn. apply same_letter_lower in H. congruence.
  - revert t. induction s as [|a s IH]; intros [|b t] H; cbn in H; try discriminate; constructor.
    + apply same_letter_lower. congruence.
    + apply IH. congruence.
Qed.
Lemma parse_limit_type s :
  (from_str s = Ok LMin <-> same_word s "min") /\ (from_str s = Ok LMax <-> same_word s "max") /\
  (from_str s = Ok LBoth <-> same_word s "both") /\
  (~ same_word s "min" -> ~ same_word s "max" -> ~ same_word s "both" -> from_str s = Err ValueError).
Proof.
  rewrite !same_word_lower. change (lower "min") with "min"%string. change (lower "max") with "max"%string. change (lower "both") with "both"%string.
  unfold from_str.
  destruct (String.eqb_spec (lower s) "min") as [E1|E1]; [rewrite E1; repeat split; intros; try discriminate; try reflexivity; contradiction|].
  destruct (String.eqb_spec (lower s) "max") as [E2|E2]; [rewrite E2; repeat split; intros; try discriminate; try reflexivity; contradiction|].
  destruct (String.eqb_spec (lower s) "both") as [E3|E3]; [rewrite E3; repeat split; intros; try discriminate; try reflexivity; contradiction|].
  repeat split; intros; try discriminate; try reflexivity; contradiction.
Qed.

(** *** C32 *)
Lemma convert_rows rows : convert_frames (flat_map (fun r => match r with (x, y, z, (qw, qx, qy, qz)) => [x; y; z; qw; qx; qy; qz] end) rows) =
  flat_map (fun r => match r with (x, y, z, (qw, qx, qy, qz)) => stored_frame x y z qw qx qy qz end) rows.
Proof. induction rows as [|[[[x y] z] [[[qw qx] qy] qz]] rows IH]; [reflexivity|]. cbn. now rewrite IH. Qed.
Lemma frame_history name cost gain on ty gf lm mk c os : new_frame_task name cost gain on ty gf lm mk = Ok c ->
  Forall api_op os -> exists t, frame_target (history os c) t.
Proof.
  intros Hn Ho. assert (I : frame_inv (mk_opt mk) (task_dim 6 mk) on ty (c_at (history os c))).
  { apply (api_history (frame_inv _ _ on ty)); auto.
    - eapply frame_inv_new; eauto.
    - intros; eapply frame_inv_step; eauto.
    - intros; now apply frame_inv_bind. }
  destruct I as (_ & _ & cost' & lm' & t & i & E). exists t. do 3 eexists. exact E.
Qed.
Lemma frame_setter c t0 : frame_target c t0 ->
  (forall t, fst (update_target_frame (FSE3 t) c) = Ok tt /\ frame_target (snd (update_target_frame (FSE3 t) c)) t) /\
  (forall t rows, last_dim t = Ok 7 ->
     t_data t = flat_map (fun r => match r with (x, y, z, (qw, qx, qy, qz)) => [x; y; z; qw; qx; qy; qz] end) rows ->
     fst (update_target_frame (FArr t) c) = Ok tt /\
     frame_target (snd (update_target_frame (FArr t) c))
       (mkT (t_shape t) (flat_map (fun r => match r with (x, y, z, (qw, qx, qy, qz)) => stored_frame x y z qw qx qy qz end) rows))) /\
  (forall t, ndim t <> 0 -> last_dim t <> Ok 7 -> update_target_frame (FArr t) c = (Err ValueError, c)).
Proof.
  intros (cost & lm & o & E). split; [|split].
  - intros t. unfold update_target_frame, mbind, read. rewrite E. split; [reflexivity|]. do 3 eexists. reflexivity.
  - intros t rows L D. destruct (set_target_frame_arr t c _ _ _ _ E) as [A _]. rewrite (A L). split; [reflexivity|].
    rewrite D, convert_rows. do 3 eexists. reflexivity.
  - intros t N L. destruct (set_target_frame_arr t c _ _ _ _ E) as [_ B]. destruct (B L) as [B1 B2].
    rewrite (surjective_pairing (update_target_frame (FArr t) c)), B1, B2.
    destruct (Nat.eqb_spec (ndim t) 0); [contradiction|reflexivity].
Qed.

(** *** C35, C36 *)
Lemma resolved_refers m bs ids : wf_names m -> Forall2 (refers m) bs ids -> resolved m bs ids.
Proof. intros Hw H. unfold resolved. eapply Forall2_impl; [|exact H]. intros a b Hab. now apply refers_body2id. Qed.
Lemma excl_refers m er ex : wf_names m -> Forall2 (refers2 m) er ex -> excl_resolved m er ex.
Proof.
  intros Hw H. unfold excl_resolved. eapply Forall2_impl; [|exact H]. intros [x y] [a b] [H1 H2]. cbn in *.
  destruct (refers_body2id _ _ _ Hw H1), (refers_body2id _ _ _ Hw H2). tauto.
Qed.
Lemma generated m bs ids er ex : wf_bodies m -> wf_names m -> Forall2 (refers m) bs ids -> Forall2 (refers2 m) er ex ->
  exists exs ps, exclude_set m er [] = Ok exs /\ generate_collision_pairs m bs exs = Ok ps /\ checks_exactly m ids ex ps.
Proof.
  intros Hb Hw H1 H2. apply (resolved_refers m) in H1; [|exact Hw]. apply (excl_refers m) in H2; [|exact Hw].
  destruct (exclude_set_ok m er ex H2 []) as (exs & E & _). exists exs.
  destruct (pairs_generated m Hb bs ids er ex exs H1 H2 E) as (ps & E' & N & I). exists ps. split; [exact E|]. split; [exact E'|].
  split; [exact N|]. intros g1 g2. rewrite I. split.
  - intros (a & b & T & P). assert (a <> b).
    { destruct T as (b1 & b2 & _ & _ & Hne & _ & _ & _ & _ & <- & _ & <- & _). congruence. }
    injection P as -> ->. destruct (Z.min_spec a b) as [[L ->]|[L ->]], (Z.max_spec a b) as [[L' ->]|[L' ->]]; try lia; (split; [lia|]); auto.
    now apply to_check_comm.
  - intros [L T]. exists g1, g2. split; [exact T|]. f_equal; lia.
Qed.
Lemma refers_all m : Forall2 (refers m) (map CBInt (zrange 0 (Z.of_nat (m_nbody m)))) (all_bodies m).
Proof.
  rewrite zrange_seq. unfold all_bodies. rewrite map_map.
  assert (H : forall l, (forall i, In i l -> i < m_nbody m) -> Forall2 (refers m) (map (fun x => CBInt (Z.of_nat x)) l) (map Z.of_nat l)).
  { induction l as [|i l IH]; intros H; cbn; constructor; [constructor; unfold is_body; specialize (H i (or_introl eq_refl)); lia|].
    apply IH. intros j Hj. apply H. now right. }
  apply H. intros i Hi. apply in_seq in Hi. lia.
Qed.
Lemma bind_checks m c sdg s ids ex : a_ext (c_at c) = XBarrier sdg (BSelf s) -> wf_bodies m -> wf_names m ->
  Forall2 (refers m) (listed m (sc_bodies s)) ids -> Forall2 (refers2 m) (sc_excl_raw s) ex ->
  exists ps, fst (update_model m c) = Ok tt /\ checks (snd (update_model m c)) ps /\ checks_exactly m ids ex ps /\
    a_dim (c_at (snd (update_model m c))) = (if (sc_n s =? -1)%Z then Z.of_nat (List.length ps) else sc_n s).
Proof.
  intros He Hb Hw H1 H2. destruct (generated m _ _ _ _ Hb Hw H1 H2) as (exs & ps & E1 & E2 & C). exists ps.
  assert (B := self_bind m c sdg s He). rewrite E1, E2 in B. cbn zeta in B. rewrite B. split; [reflexivity|].
  split; [do 2 eexists; split; reflexivity|]. split; [exact C|reflexivity].
Qed.
Lemma pairs_sound_complete name gain gf sdg dm bs er n c os m ids ex :
  new_self_collision name gain gf sdg dm bs er n = Ok c -> bs <> [] -> Forall api_op os ->
  wf_bodies m -> wf_names m -> Forall2 (refers m) bs ids -> Forall2 (refers2 m) er ex ->
  exists ps, fst (update_model m (history os c)) = Ok tt /\ checks (snd (update_model m (history os c))) ps /\ checks_exactly m ids ex ps.
Proof.
  intros Hn Hne Ho Hb Hw H1 H2. destruct (self_history _ _ _ _ _ _ _ _ _ os Hn Hne Ho) as (s & exs & ps & k & E).
  destruct (bind_checks m _ _ _ ids ex E Hb Hw) as (ps' & A & B & C & _).
  - cbn. destruct bs; [contradiction|exact H1].
  - exact H2.
  - exists ps'. auto.
Qed.
Lemma default_pairs name gain gf sdg dm er n c os m ex :
  new_self_collision name gain gf sdg dm [] er n = Ok c -> Forall no_bind os ->
  wf_bodies m -> wf_names m -> Forall2 (refers2 m) er ex ->
  exists ps, fst (update_model m (history os c)) = Ok tt /\ checks (snd (update_model m (history os c))) ps /\
    checks_exactly m (all_bodies m) ex ps /\ (n = (-1)%Z -> a_dim (c_at (snd (update_model m (history os c)))) = Z.of_nat (List.length ps)).
Proof.
  intros Hn Ho Hb Hw H2.
  assert (E : a_ext (c_at (history os c)) = XBarrier sdg (BSelf (mkSC dm [] er None None n))).
  { assert (E0 := self_new _ _ _ _ _ _ _ _ _ Hn). revert E0. clear Hn. revert c. induction Ho as [|o os Ho1 _ IH]; intros c E0; [exact E0|].
    cbn. apply IH. assert (S : asteps (c_at c) (c_at (after o c))) by (apply api_steps; [destruct o; cbn in *; tauto|intros m' ->; exact Ho1]).
    revert E0. clear - S. induction S as [x y H|x|x y z _ IH1 _ IH2]; auto. intros E.
    destruct H; try (rewrite E in *; discriminate); cbn; auto. destruct (forced_other _ _ H) as (_ & _ & _ & _ & _ & ->). exact E. }
  destruct (bind_checks m _ _ _ (all_bodies m) ex E Hb Hw) as (ps' & A & B & C & D).
  - apply refers_all.
  - exact H2.
  - exists ps'. split; [exact A|]. split; [exact B|]. split; [exact C|]. intros ->. exact D.
Qed.
(** The pairs depend on the listed bodies and excluded pairs as sets only. *)
Lemma order_irrelevant m ids ids' ex ex' ps ps' : (forall b, In b ids <-> In b ids') -> same_excl ex ex' ->
  checks_exactly m ids ex ps -> checks_exactly m ids' ex' ps' -> forall p, In p ps <-> In p ps'.
Proof.
  intros Hi Hx [_ H1] [_ H2] [g1 g2]. rewrite H1, H2. unfold to_check.
  split; intros [L (b1 & b2 & h1 & h2 & h3 & h4 & h5 & h6)]; (split; [exact L|]); exists b1, b2;
  (split; [now apply Hi|]); (split; [now apply Hi|]); (split; [exact h3|]); specialize (Hx b1 b2); tauto.
Qed.
Lemma order_irrelevant_barriers m name gain gf sdg dm bs er n c os name' gain' gf' sdg' dm' bs' er' n' c' os' ids ids' ex ex' ps ps' :
  new_self_collision name gain gf sdg dm bs er n = Ok c -> bs <> [] -> Forall api_op os ->
  new_self_collision name' gain' gf' sdg' dm' bs' er' n' = Ok c' -> bs' <> [] -> Forall api_op os' ->
  wf_bodies m -> wf_names m ->
  Forall2 (refers m) bs ids -> Forall2 (refers2 m) er ex -> Forall2 (refers m) bs' ids' -> Forall2 (refers2 m) er' ex' ->
  (forall b, In b ids <-> In b ids') -> same_excl ex ex' ->
  checks (snd (update_model m (history os c))) ps -> checks (snd (update_model m (history os' c'))) ps' ->
  forall p, In p ps <-> In p ps'.
Proof.
  intros Hn Hne Ho Hn' Hne' Ho' Hb Hw R1 R2 R1' R2' Hi Hx C C'.
  destruct (pairs_sound_complete _ _ _ _ _ _ _ _ _ os m ids ex Hn Hne Ho Hb Hw R1 R2) as (q & _ & D & E).
  destruct (pairs_sound_complete _ _ _ _ _ _ _ _ _ os' m ids' ex' Hn' Hne' Ho' Hb Hw R1' R2') as (q' & _ & D' & E').
  assert (q = ps). { destruct C as (s1 & k1 & X1 & Y1), D as (s2 & k2 & X2 & Y2). rewrite X1 in X2. injection X2 as <- <-. congruence. }
  assert (q' = ps'). { destruct C' as (s1 & k1 & X1 & Y1), D' as (s2 & k2 & X2 & Y2). rewrite X1 in X2. injection X2 as <- <-. congruence. }
  subst. eapply order_irrelevant; eauto.
Qed.

(** *** C37, C40 *)
Definition self_c (bs : list cbody) (er : list (cbody * cbody)) : comp :=
  mkC (mkA "self" None (tscalar 1) (fun x => x) (-1) None [] (XBarrier 0%R (BSelf (mkSC 0%R bs er None None (-1))))) true None.
Lemma self_c_new bs er : new_self_collision "self" (tscalar 1) None 0%R 0%R bs er (-1)%Z = Ok (self_c bs er).
Proof. reflexivity. Qed.
Lemma unknown_body_listed : exists name gain gf sdg dm bs n c m s g1 g2 ps,
  new_self_collision name gain gf sdg dm bs [] n = Ok c /\ wf_bodies m /\ wf_names m /\ In (CBStr s) bs /\
  (forall i, ~ has_object m OBody s i) /\ fst (update_model m c) = Ok tt /\ checks (snd (update_model m c)) ps /\
  In (g1, g2) ps /\ (* a geom of the last body, which nobody listed *)
  ent (m_geom_bodyid m) g2 = (Z.of_nat (m_nbody m) - 1)%Z /\ ~ In (CBInt (ent (m_geom_bodyid m) g2)) bs.
Proof.
  exists "self"%string, (tscalar 1), None, 0%R, 0%R, [CBStr "elbwo"; CBInt 1]%string, (-1)%Z, (self_c [CBStr "elbwo"; CBInt 1]%string []), arm4, "elbwo"%string, 0%Z, 3%Z, [(0, 3)]%Z.
  split; [reflexivity|]. split; [apply chain_bodies|]. split; [apply chain_names|]. split; [now left|].
  split; [intros i [H|[H|[]]]; discriminate|]. split; [reflexivity|]. split; [do 2 eexists; split; [vm_compute; reflexivity|reflexivity]|].
  split; [now left|]. split; [reflexivity|]. cbn. intros [H|[H|[]]]; discriminate.
Qed.
Lemma unknown_body_excluded : exists name gain gf sdg dm bs s n c m ps,
  new_self_collision name gain gf sdg dm bs [(CBInt 1, CBStr s)] n = Ok c /\ wf_bodies m /\ wf_names m /\
  (forall i, ~ has_object m OBody s i) /\ fst (update_model m c) = Ok tt /\ checks (snd (update_model m c)) ps.
Proof.
  exists "self"%string, (tscalar 1), None, 0%R, 0%R, [], "elbwo"%string, (-1)%Z, (self_c [] [(CBInt 1, CBStr "elbwo"%string)]), arm4. eexists.
  split; [reflexivity|]. split; [apply chain_bodies|]. split; [apply chain_names|].
  split; [intros i [H|[H|[]]]; discriminate|]. split; [reflexivity|]. do 2 eexists. split; [vm_compute; reflexivity|reflexivity].
Qed.
Lemma rebind_keeps_old_bodies : exists name gain gf sdg dm c m1 m2 ps g1 g2,
  new_self_collision name gain gf sdg dm [] [] (-1) = Ok c /\ wf_bodies m1 /\ wf_names m1 /\ wf_bodies m2 /\ wf_names m2 /\
  fst (update_model m1 c) = Ok tt /\ fst (update_model m2 (snd (update_model m1 c))) = Ok tt /\
  checks (snd (update_model m2 (snd (update_model m1 c)))) ps /\
  to_check m2 (all_bodies m2) [] g1 g2 /\ (g1 < g2)%Z /\ ps = [] /\
  a_dim (c_at (snd (update_model m2 (snd (update_model m1 c))))) = 0%Z.
Proof.
  exists "self"%string, (tscalar 1), None, 0%R, 0%R, (self_c [] []), arm2, arm4, [], 0%Z, 2%Z.
  split; [reflexivity|]. split; [apply chain_bodies|]. split; [apply chain_names|]. split; [apply chain_bodies|]. split; [apply chain_names|].
  split; [reflexivity|]. split; [reflexivity|]. split; [do 2 eexists; split; [vm_compute; reflexivity|reflexivity]|].
  split; [|split; [reflexivity|split; reflexivity]].
  exists 1%Z, 3%Z. repeat split; cbn; auto; try discriminate; try lia. left; discriminate.
Qed.

(** *** C54 *)
Lemma equality_history name gain hard soft c os : new_model_equality name gain hard soft = Ok c -> Forall api_op os ->
  a_ext (c_at (history os c)) = XConstraint true hard soft CModelEq.
Proof.
  intros Hn Ho. apply (api_history (fun a => a_ext a = XConstraint true hard soft CModelEq)); auto.
  - unfold new_model_equality in Hn. destruct (init_component _ _ _ _ _) as [a|] eqn:E; [|discriminate]. injection Hn as <-.
    now apply init_comp_mask in E.
  - intros a a' E S. destruct S; try (rewrite E in *; discriminate); cbn; auto. destruct (forced_other _ _ H) as (_ & _ & _ & _ & _ & ->). exact E.
  - intros c1 m E. destruct (equality_bind_any m c1 _ _ _ E) as [(k & ->)| ->]; exact E.
Qed.
Lemma equality_dimension name gain hard soft c os m : new_model_equality name gain hard soft = Ok c -> Forall api_op os ->
  List.length (m_eq_type m) = m_neq m ->
  (Forall eq_supported (m_eq_type m) ->
     fst (update_model m (history os c)) = Ok tt /\
     a_dim (c_at (snd (update_model m (history os c)))) = Z.of_nat (fold_right (fun t k => eq_rows t + k) 0 (m_eq_type m))) /\
  (~ Forall eq_supported (m_eq_type m) -> fst (update_model m (history os c)) = Err ValueError).
Proof.
  intros Hn Ho Hl. destruct (equality_bind m _ _ _ _ (equality_history _ _ _ _ _ _ Hn Ho) Hl) as [A B]. split; [|exact B].
  intros H. rewrite (A H). split; reflexivity.
Qed.
