(** Which file an asset is read from. *)
From Verif Require Import Base Lin Problem JaxTree JaxTreeFacts Visualize SpecViz SpecFiles VizFacts3.
Open Scope nat_scope.

Lemma find_first dirs f c : find_asset dirs f = Ok c <-> first_file dirs f c.
Proof.
  split.
  - induction dirs as [|[d fs] r IH]; cbn; [discriminate|]. destruct (assoc f fs) as [c'|] eqn:E.
    + intros H. injection H as ->. exists [], d, fs, r. repeat split; [exact E|]. intros e [].
    + intros H. destruct (IH H) as (b & d' & fs' & a & -> & E' & Hb). exists ((d, fs) :: b), d', fs', a. repeat split; [exact E'|]. intros e [<-|He]; [exact E|now apply Hb].
  - intros (b & d & fs & a & -> & E & Hb). induction b as [|[d' fs'] b IH]; cbn; [now rewrite E|]. pose proof (Hb (d', fs') (or_introl eq_refl)) as X. cbn in X. rewrite X. apply IH. intros e He. apply Hb. now right.
Qed.
Lemma first_held dirs f c : first_file dirs f c -> holds_file dirs f c.
Proof. intros (b & d & fs & a & -> & E & _). exists d, fs. split; [apply in_elt|exact E]. Qed.

Lemma assets_first root dirs root' assets : remove_high_level_body_tags root dirs = Ok (root', assets) ->
  forall y f, In y (descendants root') -> is_asset y = true -> file_of y = Some f -> exists c, assoc f assets = Some c /\ first_file dirs f c.
Proof. intros H y f Hy Ha Hf. destruct (assets_supplied _ _ _ _ H y f Hy Ha Hf) as (c & A & B). exists c. split; [exact A|]. now apply find_first. Qed.

Lemma assets_right_iff root dirs root' assets : remove_high_level_body_tags root dirs = Ok (root', assets) ->
  forall y f, In y (descendants root') -> is_asset y = true -> file_of y = Some f ->
  (forall c, holds_file dirs f c -> assoc f assets = Some c) <-> (forall c c', holds_file dirs f c -> holds_file dirs f c' -> c = c').
Proof.
  intros H y f Hy Ha Hf. destruct (assets_first _ _ _ _ H y f Hy Ha Hf) as (c0 & A & B). apply first_held in B. split.
  - intros R c c' Hc Hc'. apply R in Hc, Hc'. congruence.
  - intros R c Hc. rewrite A. f_equal. now apply R.
Qed.
Lemma load_outcome dirs els : forall acc, ((exists out, load_assets dirs els acc = Ok out) <-> forall x f, In x els -> file_of x = Some f -> exists c, holds_file dirs (strip_hash f) c) /\
  ((forall out, load_assets dirs els acc <> Ok out) -> load_assets dirs els acc = Err ValueError).
Proof.
  assert (F : forall f, (exists c, find_asset dirs f = Ok c) <-> exists c, holds_file dirs f c).
  { intros f. split; [intros (c & H); exists c; now apply first_held, find_first|]. intros (c & d & fs & Hi & E). clear -Hi E. induction dirs as [|[d' fs'] r IH]; [destruct Hi|]. cbn.
    destruct (assoc f fs') eqn:E'; [eauto|]. destruct Hi as [Hi|Hi]; [injection Hi as -> ->; congruence|]. now apply IH. }
  assert (V : forall f, (exists c, find_asset dirs f = Ok c) \/ find_asset dirs f = Err ValueError).
  { intros f. clear. induction dirs as [|[d fs] r IH]; cbn; [now right|]. destruct (assoc f fs); [left; eauto|exact IH]. }
  induction els as [|x r IH]; intros acc; cbn [load_assets].
  - split; [|intros H; exfalso; now apply (H acc)]. split; [intros _ x f []|intros _; eauto].
  - destruct (file_of x) as [f|] eqn:Ef.
    + destruct (V (strip_hash f)) as [[c Hc]|Hc]; rewrite Hc; cbn [bind].
      * destruct (IH (dict_set (strip_hash f) c acc)) as [I1 I2]. split; [|exact I2]. rewrite I1. split.
        -- intros G y g [<-|Hy] Hg; [|now apply (G y g)]. rewrite Ef in Hg. injection Hg as <-. apply F. eauto.
        -- intros G y g Hy. apply (G y g). now right.
      * split; [|reflexivity]. split; [intros (o & Ho); discriminate|]. intros G. destruct (proj2 (F (strip_hash f)) (G x f (or_introl eq_refl) Ef)) as (c & Hc'). congruence.
    + destruct (IH acc) as [I1 I2]. split; [|exact I2]. rewrite I1. split.
      * intros G y g [<-|Hy] Hg; [congruence|now apply (G y g)].
      * intros G y g Hy. apply (G y g). now right.
Qed.

Definition forest (l : list xml) : list xml := flat_map (fun y => y :: descendants y) l.
Lemma forest_app l r : forest (l ++ r) = forest l ++ forest r. Proof. apply flat_map_app. Qed.
Lemma in_forest x l : In x (forest l) <-> exists y, In y l /\ (y = x \/ In x (descendants y)).
Proof. unfold forest. rewrite in_flat_map. reflexivity. Qed.
Lemma hoist_assets kids x : is_asset x = true ->
  (In x (forest (filter (fun y => negb (is_body y)) kids ++ flat_map x_kids (filter is_body kids))) <-> In x (forest kids)).
Proof.
  intros Hx. assert (Nb : is_body x = false). { unfold is_asset in Hx. unfold is_body. destruct (String.eqb_spec (x_tag x) "body") as [E|]; [rewrite E in Hx; discriminate|reflexivity]. }
  rewrite !in_forest. split.
  - intros (y & Hy & H). apply in_app_iff in Hy as [Hy|Hy]; [apply filter_In in Hy as [Hy _]; eauto|]. apply in_flat_map in Hy as (b & Hb & Hy). apply filter_In in Hb as [Hb _].
    exists b. split; [exact Hb|]. right. destruct b as [u t a ks]. cbn in *. apply in_flat_map. exists y. split; [exact Hy|exact H].
  - intros (y & Hy & H). destruct (is_body y) eqn:Eb.
    + destruct H as [->|H]; [congruence|]. destruct y as [u t a ks]. cbn [descendants] in H. apply in_flat_map in H as (z & Hz & H). exists z. split; [|exact H].
      apply in_app_iff. right. apply in_flat_map. exists (El u t a ks). split; [apply filter_In; now split|exact Hz].
    + exists y. split; [|exact H]. apply in_app_iff. left. apply filter_In. rewrite Eb. now split.
Qed.
Lemma hoisted_assets u g a pre wu wa kids post x : Forall (no_tag "worldbody") pre -> NoDup (uids kids) -> is_asset x = true ->
  (In x (descendants (hoist_root (El u g a (pre ++ El wu "worldbody" wa kids :: post)))) <-> In x (descendants (El u g a (pre ++ El wu "worldbody" wa kids :: post)))).
Proof.
  intros Hp Hn Hx. rewrite (hoist_root_spec u g a pre wu wa kids post Hp Hn). cbn [descendants].
  change (In x (forest (pre ++ El wu "worldbody" wa (filter (fun y => negb (is_body y)) kids ++ flat_map x_kids (filter is_body kids)) :: post)) <-> In x (forest (pre ++ El wu "worldbody" wa kids :: post))).
  rewrite !forest_app, !in_app_iff. cbn [forest flat_map]. fold (forest post). cbn [descendants]. fold (forest kids). fold (forest (filter (fun y => negb (is_body y)) kids ++ flat_map x_kids (filter is_body kids))).
  cbn [app]. assert (W : forall ks, El wu "worldbody" wa ks <> x) by (intros ks <-; discriminate Hx). cbn [In]. rewrite !in_app_iff. rewrite (hoist_assets kids x Hx). split; intros [H|[H|H]]; auto; exfalso; eapply W; exact H.
Qed.
Lemma files_outcome u g a pre wu wa kids post dirs : let root := El u g a (pre ++ El wu "worldbody" wa kids :: post) in
  Forall (no_tag "worldbody") pre -> NoDup (uids kids) ->
  ((exists r, remove_high_level_body_tags root dirs = Ok r) <->
   forall y f, In y (descendants root) -> is_asset y = true -> file_of y = Some f -> exists c, holds_file dirs (strip_hash f) c) /\
  ((forall r, remove_high_level_body_tags root dirs <> Ok r) -> remove_high_level_body_tags root dirs = Err ValueError).
Proof.
  intros root Hp Hn. assert (A : forall x, is_asset x = true -> (In x (descendants (hoist_root root)) <-> In x (descendants root))) by (intros x; now apply hoisted_assets).
  unfold remove_high_level_body_tags. set (r0 := hoist_root root) in *. clearbody r0. cbv zeta. set (els := filter _ _ ++ filter _ _).
  assert (Ei : forall x, In x els <-> In x (descendants r0) /\ is_asset x = true).
  { intros x. unfold els, is_asset. rewrite in_app_iff, !filter_In, Bool.orb_true_iff. tauto. }
  destruct (load_outcome dirs els []) as [I1 I2].
  assert (B : (exists r, (do assets <- load_assets dirs els []; let 'El u t a ks := r0 in Ok (El u t a (map rename_files ks), assets)) = Ok r) <-> exists out, load_assets dirs els [] = Ok out).
  { destruct (load_assets dirs els []) as [o|e]; cbn [bind]; [|split; intros (r & Hr); discriminate]. split; intros _; [eauto|]. destruct r0. eauto. }
  split.
  - rewrite B, I1. split.
    + intros H y f Hy Ha Hf. apply (H y f); [|exact Hf]. apply Ei. split; [now apply A|exact Ha].
    + intros H y f Hy Hf. apply Ei in Hy as [Hy Ha]. apply (H y f); [now apply A|exact Ha|exact Hf].
  - intros H. destruct (load_assets dirs els []) as [o|e]; cbn [bind] in *; [exfalso|]; [destruct r0; eapply H; reflexivity|]. pose proof (I2 ltac:(discriminate)) as X. now injection X as ->.
Qed.
