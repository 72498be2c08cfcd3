(** Which components of the user can be evaluated after any loop calls. *)
From Verif Require Import Base Lin LinFacts Mjx Typing Component Problem SpecComponent SpecJoint SpecHistory SpecTyping SpecCollision SpecTree SpecShape SpecContact SpecSelf SpecValue SpecProblem SpecQP SpecFit SpecTrace SpecSetup.
From Verif Require Import ComponentFacts BindFacts3 CompThms BindThms2 CollideFacts2 CollideFacts3 ProblemFacts FitFacts SetupFacts SetupFacts2 SetupFacts3 SetupFacts4 Conf JaxComponents LocalIK GlobalIK SpecMotion SpecGlobal SpecClosed SpecGLoop TraceFacts ClosedFacts.
Open Scope R_scope.
#[local] Arguments update_model : simpl never.
#[local] Arguments jax_component : simpl never.
#[local] Arguments build_component : simpl never.
#[local] Arguments generate_collision_pairs : simpl never.
#[local] Arguments exclude_set : simpl never.

Lemma reports_count T m d ps rs : Forall2 (reports T m d) ps rs -> (List.length ps <= List.length (List.concat rs))%nat.
Proof. induction 1 as [|p l ps rs (n & f & k & _ & _ & Hn & Hl & ->) _ IH]; cbn; [lia|]. rewrite app_length, map_length. lia. Qed.
Lemma contacts_found L m d ps : wf_geoms m -> Forall (geom_pair m) ps -> full_table (l_coll L) m ps -> exists l, all_contacts L m d ps l /\ (List.length ps <= List.length l)%nat.
Proof.
  intros Hg Hp HT. destruct (contacts_attached (l_coll L) m d ps Hg Hp HT) as (cs & l & rs & _ & _ & F & _). exists (List.concat rs). split; [now exists rs|]. apply reports_count in F. now rewrite map_length in F.
Qed.
Lemma custom_dim m c : (exists cost lm f, a_ext (c_at c) = XTask cost lm (TCustom f)) \/ (exists s f, a_ext (c_at c) = XBarrier s (BCustom f)) \/ (exists x h s f, a_ext (c_at c) = XConstraint x h s (CCustom f)) ->
  a_dim (c_at (bound m c)) = a_dim (c_at c) /\ a_ext (c_at (bound m c)) = a_ext (c_at c).
Proof.
  intros [(? & ? & ? & E)|[(? & ? & E)|(? & ? & ? & ? & E)]]; unfold bound, update_model, mbind, read; rewrite E; cbn; auto.
Qed.
Lemma self_found m c sdg s d : sound_model m -> a_ext (c_at c) = XBarrier sdg (BSelf s) -> suits m c d -> fst (update_model m c) = Ok tt ->
  exists ids ex ps bs exs, lists_bodies m (sc_bodies s) ids /\ Forall2 (refers2 m) (sc_excl_raw s) ex /\ checks_exactly m ids ex ps /\ Forall (geom_pair m) ps /\
  a_ext (c_at (bound m c)) = XBarrier sdg (BSelf (mkSC (sc_dmin s) bs (sc_excl_raw s) exs (Some ps) (if (sc_n s =? -1)%Z then Z.of_nat (List.length ps) else sc_n s))).
Proof.
  intros Hm E D Ok_. destruct (self_bind_ok m c sdg s E Ok_) as (exs & ps & X1 & X2 & X3). pose proof Hm as (_ & Wb & _ & Wn & _).
  unfold suits in D. rewrite E in D. destruct D as (_ & ids & ex & ps' & D1 & D2 & _).
  assert (Hr : Forall2 (refers m) (listed m (sc_bodies s)) ids). { unfold lists_bodies, listed in *. destruct (sc_bodies s); [subst ids; apply refers_all|exact D1]. }
  destruct (generated m _ ids _ ex Wb Wn Hr D2) as (exs' & ps2 & Y1 & Y2 & Y3). rewrite X1 in Y1. injection Y1 as <-. rewrite X2 in Y2. injection Y2 as <-.
  exists ids, ex, ps, (listed m (sc_bodies s)), (Some exs). split; [exact D1|]. split; [exact D2|]. split; [exact Y3|]. split; [eapply generated_pairs; [exact Wb|constructor|exact X2]|].
  unfold bound. rewrite X3. reflexivity.
Qed.
Lemma evaluates_accepted m c e L q d F : sound_model m -> suits m c d -> fst (update_model m c) = Ok tt -> made_of m F c e -> evaluates L m q c -> wf_data m (update L m q) -> accepted L (update L m q) (snd e).
Proof.
  intros Hm D Ok_ (_ & SC & c' & Pb & Pl & Jd & _ & _ & _ & K) Ev Hd.
  destruct (plain_accepted m c' (snd e) L (update L m q) Pl Jd Pb) as [N|A]; [|exact A].
  pose proof Pb as (P1 & P2 & P3 & _ & _ & _ & P7). destruct K as (K1 & K2 & _ & _ & K5).
  assert (Mo : a_model (c_at (bound m c)) = Some m -> j_model (snd e) = m) by congruence.
  unfold same_class in SC. unfold evaluates in Ev. unfold accepted, needs_care in *.
  destruct (a_ext (c_at c)) as [cost lm kt|sdg kb|x h so kc] eqn:E.
  - destruct kt as [| | | |f]; destruct (j_ext (snd e)) as [? ? kj|? kj|? ? ? kj] eqn:Ej; try contradiction; destruct kj as [| | | |f']; try contradiction.
    destruct (custom_dim m c) as [B1 B2]; [left; eauto|]. inversion P7 as [| | | |? ? ? ? Y| | | | | |]; subst. intros dd Hdd. rewrite B2, E, Y in K5. cbn in K5. injection K5 as K5 K6. subst.
    rewrite P2, K2, B1. apply Ev. rewrite Mo in Hdd; [exact Hdd|]. unfold bound, update_model, mbind, read. rewrite E. reflexivity.
  - destruct kb as [| |s|f]; destruct (j_ext (snd e)) as [? ? kj|? kj|? ? ? kj] eqn:Ej; try contradiction; destruct kj as [| |dv ps n|f']; try contradiction.
    + destruct (self_found m c sdg s d Hm E D Ok_) as (ids & ex & ps' & bs & exs & A1 & A2 & A3 & A4 & A5). destruct (Ev ids ex ps' A1 A2 A3) as (E1 & E2 & E3).
      inversion P7 as [| | | | | | |? ? ? ? ? ? ? Y| | |]; subst. rewrite A5, Y in K5. cbn in K5. injection K5 as _ _ _ K6 K7. subst ps' n.
      assert (Jm : j_model (snd e) = m). { apply Mo. destruct (self_bind_ok m c sdg s E Ok_) as (? & ? & _ & _ & X). unfold bound. rewrite X. reflexivity. }
      rewrite Jm. split; [exact E1|]. split; [exact E2|]. destruct (contacts_found L m (update L m q) ps) as (l & C1 & C2); [apply Hm|exact A4|exact E2|]. exists l. split; [exact C1|].
      destruct (sc_n s =? -1)%Z; lia.
    + destruct (custom_dim m c) as [B1 B2]; [right; left; eauto|]. inversion P7 as [| | | | | | | |? ? Y| |]; subst. intros dd Hdd. rewrite B2, E, Y in K5. cbn in K5. injection K5 as K6. subst.
      rewrite P2, K2, B1. apply Ev. rewrite Mo in Hdd; [exact Hdd|]. unfold bound, update_model, mbind, read. rewrite E. reflexivity.
  - destruct kc as [|f]; destruct (j_ext (snd e)) as [? ? kj|? kj|? ? ? kj] eqn:Ej; try contradiction; destruct kj as [|f']; try contradiction.
    + rewrite Mo; [exact Ev|]. destruct (equality_bind_any m c x h so E) as [[k X]|X]; unfold bound; rewrite X; reflexivity.
    + destruct (custom_dim m c) as [B1 B2]; [right; right; eauto|]. inversion P7 as [| | | | | | | | | |? ? ? ? ? Y]; subst. intros dd Hdd. rewrite B2, E, Y in K5. cbn in K5. injection K5 as K6 K7 K8. subst.
      rewrite P2, K2, B1. apply Ev. rewrite Mo in Hdd; [exact Hdd|]. unfold bound, update_model, mbind, read. rewrite E. reflexivity.
Qed.
