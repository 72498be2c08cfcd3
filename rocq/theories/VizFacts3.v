(** Facts about the XML edits, names and colours. *)
From Coq Require Import Ascii.
From Verif Require Import Base Lin Rot Problem JaxTree JaxTreeFacts Visualize SpecViz.
Open Scope nat_scope.

(** ** hoisting *)
Lemma remove_child_app u l x r : ~ In u (uids l) -> x_uid x = u -> remove_child u (l ++ x :: r) = l ++ r.
Proof.
  intros Hn Hx. induction l as [|y l IH]; cbn; [rewrite Hx, Nat.eqb_refl; reflexivity|].
  destruct (Nat.eqb_spec (x_uid y) u) as [E|]; [exfalso; apply Hn; left; exact E|]. f_equal. apply IH. intros H. apply Hn. right. exact H.
Qed.
Lemma hoist_fold todo : forall done, NoDup (uids (done ++ todo)) ->
  fold_left (fun cur child => if String.eqb (x_tag child) "body" then remove_child (x_uid child) (cur ++ x_kids child) else cur) todo
    (filter (fun x => negb (is_body x)) done ++ todo ++ flat_map x_kids (filter is_body done))
  = filter (fun x => negb (is_body x)) (done ++ todo) ++ flat_map x_kids (filter is_body (done ++ todo)).
Proof.
  induction todo as [|x r IH]; intros done Hnd; [rewrite app_nil_r; reflexivity|]. cbn [fold_left].
  assert (Hdone : done ++ x :: r = (done ++ [x]) ++ r) by (rewrite <- app_assoc; reflexivity).
  assert (Hx : ~ In (x_uid x) (uids (filter (fun x => negb (is_body x)) done))).
  { unfold uids in *. rewrite map_app in Hnd. cbn in Hnd. apply NoDup_remove_2 in Hnd. intros Hin. apply Hnd. apply in_app_iff. left.
    apply in_map_iff in Hin as (y & Ey & Hy). apply filter_In in Hy as [Hy _]. apply in_map_iff. eauto. }
  destruct (String.eqb (x_tag x) "body") eqn:Eb.
  - assert (Hb : is_body x = true) by exact Eb.
    replace ((filter (fun x0 => negb (is_body x0)) done ++ (x :: r) ++ flat_map x_kids (filter is_body done)) ++ x_kids x)
      with (filter (fun x0 => negb (is_body x0)) done ++ x :: (r ++ flat_map x_kids (filter is_body (done ++ [x])))).
    2:{ rewrite filter_app. cbn [filter]. rewrite Hb. rewrite flat_map_app. cbn [flat_map]. rewrite app_nil_r. rewrite <- ?app_assoc. cbn [app]. rewrite <- ?app_assoc. reflexivity. }
    rewrite (remove_child_app _ _ x _ Hx eq_refl). rewrite Hdone. rewrite <- IH by (rewrite <- Hdone; exact Hnd).
    rewrite (filter_app (fun x0 => negb (is_body x0))). cbn [filter]. rewrite Hb. cbn [negb]. rewrite app_nil_r. reflexivity.
  - assert (Hb : is_body x = false) by exact Eb.
    rewrite Hdone. rewrite <- IH by (rewrite <- Hdone; exact Hnd). f_equal.
    rewrite !filter_app. cbn [filter]. rewrite Hb. cbn [negb]. rewrite app_nil_r. rewrite <- !app_assoc. reflexivity.
Qed.
Lemma hoist_spec kids : NoDup (uids kids) -> hoist kids = filter (fun x => negb (is_body x)) kids ++ flat_map x_kids (filter is_body kids).
Proof. intros H. pose proof (hoist_fold kids [] H) as E. cbn in E. rewrite app_nil_r in E. exact E. Qed.

(** induction on XML trees *)
Fixpoint xml_ind' (P : xml -> Prop) (H : forall u t a ks, Forall P ks -> P (El u t a ks)) (x : xml) : P x :=
  match x with El u t a ks => H u t a ks ((fix go l : Forall P l := match l with [] => Forall_nil P | y :: r => Forall_cons y (xml_ind' P H y) (go r) end) ks) end.
Lemma edit_first_none t f x : no_tag t x -> edit_first t f x = None.
Proof.
  induction x as [u g a ks IH] using xml_ind'. intros Hn. cbn [edit_first].
  destruct (String.eqb_spec g t) as [->|]; [exfalso; apply (Hn (El u t a ks)); [left; reflexivity|reflexivity]|].
  assert (E : (fix go (l : list xml) : option (list xml) := match l with [] => None | y :: r => match edit_first t f y with Some y' => Some (y' :: r) | None => option_map (cons y) (go r) end end) ks = None).
  { assert (Hk : forall y, In y ks -> no_tag t y).
    { intros y Hy z Hz. apply Hn. right. cbn [descendants]. apply in_flat_map. exists y. split; [exact Hy|exact Hz]. }
    clear Hn. induction ks as [|y r IHk]; [reflexivity|]. inversion IH as [|? ? H1 H2]; subst. rewrite (H1 (Hk y (or_introl eq_refl))).
    rewrite IHk; [reflexivity|exact H2|]. intros z Hz. apply Hk. right. exact Hz. }
  rewrite E. reflexivity.
Qed.
Lemma edit_list_skip t f pre : forall l, Forall (no_tag t) pre -> edit_list t f (pre ++ l) = option_map (app pre) (edit_list t f l).
Proof.
  induction pre as [|y r IH]; intros l H; [cbn; destruct (edit_list t f l); reflexivity|]. inversion H; subst. cbn [app edit_list]. rewrite edit_first_none by assumption.
  rewrite IH by assumption. destruct (edit_list t f l); reflexivity.
Qed.
Lemma hoist_root_spec u g a pre wu wa kids post : Forall (no_tag "worldbody") pre -> NoDup (uids kids) ->
  hoist_root (El u g a (pre ++ El wu "worldbody" wa kids :: post))
  = El u g a (pre ++ El wu "worldbody" wa (filter (fun x => negb (is_body x)) kids ++ flat_map x_kids (filter is_body kids)) :: post).
Proof.
  intros Hp Hn. unfold hoist_root. rewrite edit_list_skip by exact Hp. cbn [edit_list edit_first String.eqb]. cbn. rewrite (hoist_spec kids Hn). reflexivity.
Qed.
Lemma hoist_root_none u g a ks : Forall (no_tag "worldbody") ks -> hoist_root (El u g a ks) = El u g a ks.
Proof. intros H. unfold hoist_root. pose proof (edit_list_skip "worldbody" hoist ks [] H) as E. rewrite app_nil_r in E. rewrite E. reflexivity. Qed.

(** ** file names *)
Lemma append_assoc a b c : String.append (String.append a b) c = String.append a (String.append b c).
Proof. induction a as [|x a IH]; cbn; [reflexivity|]. rewrite IH. reflexivity. Qed.
Lemma rfind_none c s : forall i acc, ~ has_char c s -> rfind_from c s i acc = acc.
Proof.
  induction s as [|a r IH]; intros i acc H; [reflexivity|]. cbn. cbn in H. destruct (Ascii.eqb_spec a c); [exfalso; apply H; left; assumption|]. apply IH. tauto.
Qed.
Lemma rfind_app c a b : forall i acc, ~ has_char c b -> rfind_from c (String.append a (String c b)) i acc = (i + Z.of_nat (String.length a))%Z.
Proof.
  induction a as [|x a IH]; intros i acc H; cbn [String.append rfind_from String.length].
  - rewrite Ascii.eqb_refl, rfind_none by exact H. lia.
  - rewrite IH by exact H. lia.
Qed.
Lemma length_append a b : String.length (String.append a b) = String.length a + String.length b.
Proof. induction a as [|x a IH]; cbn; [reflexivity|]. rewrite IH. reflexivity. Qed.
Lemma substring_prefix a b : substring 0 (String.length a) (String.append a b) = a.
Proof. induction a as [|x a IH]; cbn; [destruct b; reflexivity|]. rewrite IH. reflexivity. Qed.
Lemma substring_all b : substring 0 (String.length b) b = b.
Proof. induction b as [|x b IH]; cbn; [reflexivity|]. rewrite IH. reflexivity. Qed.
Lemma substring_suffix a b : substring (String.length a) (String.length b) (String.append a b) = b.
Proof. induction a as [|x a IH]; cbn; [apply substring_all|exact IH]. Qed.
Lemma clip_at a b : clip_index (String.append a b) (Z.of_nat (String.length a)) = String.length a.
Proof. unfold clip_index. rewrite length_append. destruct (Z.ltb_spec (Z.of_nat (String.length a)) 0); lia. Qed.
Lemma has_char_app c a b : has_char c (String.append a b) <-> has_char c a \/ has_char c b.
Proof. induction a as [|x a IH]; cbn; [tauto|]. rewrite IH. tauto. Qed.
Lemma strip_hash_spec name hash ext : ~ has_char "-" hash -> ~ has_char "-" ext -> ~ has_char "." ext ->
  strip_hash (String.append name (String "-" (String.append hash (String "." ext)))) = String.append name (String "." ext).
Proof.
  intros H1 H2 H3. set (f := String.append name _). unfold strip_hash.
  assert (Hd : rfind "-" f = Z.of_nat (String.length name)).
  { unfold rfind, f. rewrite rfind_app; [lia|]. rewrite has_char_app. cbn. intros [H|[H|H]]; [tauto|discriminate|tauto]. }
  assert (Ef : f = String.append (String.append name (String "-" hash)) (String "." ext)) by (unfold f; rewrite append_assoc; reflexivity).
  assert (He : rfind "." f = Z.of_nat (String.length (String.append name (String "-" hash)))).
  { unfold rfind. rewrite Ef, rfind_app by exact H3. lia. }
  rewrite Hd, He. unfold slice_to, slice_from.
  replace (clip_index f (Z.of_nat (String.length (String.append name (String "-" hash))))) with (String.length (String.append name (String "-" hash))) by (symmetry; rewrite Ef; apply clip_at).
  replace (clip_index f _) with (String.length name) by (symmetry; unfold f; apply clip_at).
  set (p := String.append name (String "-" hash)) in *. set (e := String "." ext) in *.
  assert (E1 : substring 0 (String.length name) f = name) by apply substring_prefix. rewrite E1.
  rewrite Ef, length_append. replace (String.length p + String.length e - String.length p) with (String.length e) by lia.
  rewrite substring_suffix. reflexivity.
Qed.

(** ** assets *)
Lemma descendants_rename x : descendants (rename_files x) = map rename_files (descendants x).
Proof.
  induction x as [u t a ks IH] using xml_ind'. cbn [rename_files descendants]. induction ks as [|y r IHr]; [reflexivity|].
  inversion IH as [|? ? H1 H2]; subst. cbn [map flat_map]. rewrite H1, map_app. cbn. f_equal. f_equal. apply IHr. exact H2.
Qed.
Lemma load_spec dirs els : forall acc out, load_assets dirs els acc = Ok out ->
  (forall x f, In x els -> file_of x = Some f -> exists c, find_asset dirs (strip_hash f) = Ok c /\ assoc (strip_hash f) out = Some c) /\
  (forall n c, assoc n out = Some c -> assoc n acc = Some c \/ (find_asset dirs n = Ok c /\ exists x f, In x els /\ file_of x = Some f /\ strip_hash f = n)) /\
  (forall n c, assoc n acc = Some c -> find_asset dirs n = Ok c -> assoc n out = Some c).
Proof.
  induction els as [|x r IH]; intros acc out H; cbn [load_assets] in H.
  - injection H as <-. split; [intros x f []|]. split; [intros n c Hc; left; exact Hc|tauto].
  - destruct (file_of x) as [f|] eqn:Ef.
    + destruct (find_asset dirs (strip_hash f)) as [c|] eqn:Ec; cbn [bind] in H; [|discriminate]. destruct (IH _ _ H) as (I1 & I2 & I3). split; [|split].
      * intros y g [<-|Hy] Hg; [|exact (I1 y g Hy Hg)]. rewrite Ef in Hg. injection Hg as <-. exists c. split; [exact Ec|]. apply I3; [|exact Ec].
        rewrite assoc_dict_set, String.eqb_refl. reflexivity.
      * intros n d Hd. destruct (I2 n d Hd) as [Ha|(Ha & y & g & Hy & Hg & Hs)]; [|right; split; [exact Ha|exists y, g; split; [right; exact Hy|split; assumption]]].
        rewrite assoc_dict_set in Ha. destruct (String.eqb_spec n (strip_hash f)) as [->|]; [|left; exact Ha]. injection Ha as <-.
        right. split; [exact Ec|]. exists x, f. split; [left; reflexivity|split; [exact Ef|reflexivity]].
      * intros n d Ha Hf. apply I3; [|exact Hf]. rewrite assoc_dict_set. destruct (String.eqb_spec n (strip_hash f)) as [->|]; [|exact Ha]. congruence.
    + destruct (IH _ _ H) as (I1 & I2 & I3). split; [|split; [|exact I3]].
      * intros y g [<-|Hy] Hg; [congruence|exact (I1 y g Hy Hg)].
      * intros n d Hd. destruct (I2 n d Hd) as [Ha|(Ha & y & g & Hy & Hg & Hs)]; [left; exact Ha|right; split; [exact Ha|exists y, g; split; [right; exact Hy|split; assumption]]].
Qed.
Lemma rename_tag x : x_tag (rename_files x) = x_tag x. Proof. destruct x; reflexivity. Qed.
Lemma rename_file x f : is_asset x = true -> file_of x = Some f -> forall g, file_of (rename_files x) = Some g -> g = strip_hash f.
Proof.
  destruct x as [u t a ks]. intros Ha Hf g. unfold file_of at 1. cbn [rename_files x_attrs]. rewrite Ha, Hf. rewrite assoc_dict_set, String.eqb_refl.
  destruct (String.eqb (strip_hash f) ""); [discriminate|]. intros H. congruence.
Qed.
Lemma rename_nofile x : is_asset x = true -> file_of x = None -> file_of (rename_files x) = None.
Proof. destruct x as [u t a ks]. intros Ha Hf. unfold file_of at 1. cbn [rename_files x_attrs]. rewrite Ha, Hf. exact Hf. Qed.
Lemma assets_supplied root dirs root' assets : remove_high_level_body_tags root dirs = Ok (root', assets) ->
  forall y f, In y (descendants root') -> is_asset y = true -> file_of y = Some f -> exists c, assoc f assets = Some c /\ find_asset dirs f = Ok c.
Proof.
  unfold remove_high_level_body_tags. set (r0 := hoist_root root). clearbody r0.
  destruct (load_assets _ _ _) as [out|] eqn:Eld; cbn [bind]; [|discriminate]. destruct r0 as [u t a ks] eqn:Er. intros H. injection H as <- <-.
  intros y f Hy Ha Hf.
  assert (Hd : descendants (El u t a (map rename_files ks)) = map rename_files (descendants (El u t a ks))).
  { clear. cbn [descendants]. induction ks as [|k r IH]; [reflexivity|]. cbn [map flat_map]. rewrite descendants_rename, map_app, IH. reflexivity. }
  rewrite Hd in Hy. apply in_map_iff in Hy as (x & <- & Hx).
  assert (Hax : is_asset x = true) by (unfold is_asset in *; rewrite rename_tag in Ha; exact Ha).
  destruct (file_of x) as [f0|] eqn:E0; [|rewrite rename_nofile in Hf by assumption; discriminate].
  rewrite (rename_file x f0 Hax E0 f Hf).
  destruct (load_spec _ _ _ _ Eld) as (I1 & _). destruct (I1 x f0) as (c & Hc1 & Hc2); [|exact E0|exists c; split; assumption].
  apply in_app_iff. unfold is_asset in Hax. apply Bool.orb_true_iff in Hax as [Hm|Hm]; [left|right]; apply filter_In; split; assumption.
Qed.

(** ** prefixes *)
Fixpoint num (s : string) (v : nat) : nat := match s with EmptyString => v | String c r => num r (10 * v + (nat_of_ascii c - 48)) end.
Lemma num_digits fuel : forall n acc, n < fuel -> num (dec_digits fuel n acc) 0 = num acc n.
Proof.
  induction fuel as [|f IH]; intros n acc H; [lia|]. cbn [dec_digits].
  assert (Hd : n mod 10 < 10) by (apply Nat.mod_upper_bound; lia).
  assert (Hc : nat_of_ascii (ascii_of_nat (48 + n mod 10)) - 48 = n mod 10) by (rewrite nat_ascii_embedding by lia; lia).
  destruct (Nat.ltb_spec n 10) as [Hn|Hn].
  - cbn [num]. rewrite Hc. f_equal. rewrite Nat.mod_small by exact Hn. lia.
  - rewrite IH by (assert (n / 10 < n) by (apply Nat.div_lt; lia); lia). cbn [num]. rewrite Hc. f_equal. pose proof (Nat.div_mod n 10). lia.
Qed.
Lemma prefix_injective i j : get_prefix i = get_prefix j -> i = j.
Proof.
  unfold get_prefix. intros H.
  assert (E : dec i = dec j) by (remember (dec i) as a; remember (dec j) as b; clear - H; cbn in H; congruence).
  assert (Hi : forall k, num (dec k) 0 = k) by (intros k; unfold dec; rewrite num_digits by lia; reflexivity).
  rewrite <- (Hi i), <- (Hi j), E. reflexivity.
Qed.

(** ** groups and colours *)
Definition visibleb (gg : Z) (ks : list gclass) (g : geom) : bool := match geom_group_of ks g with Some x => (x =? gg)%Z | None => true end.
Lemma visibleb_iff gg ks g : visibleb gg ks g = true <-> visible gg ks g.
Proof.
  unfold visibleb, visible. destruct (geom_group_of ks g) as [x|].
  - rewrite Z.eqb_eq. split; [intros <- y Hy; congruence|intros H; apply H; reflexivity].
  - split; [discriminate|reflexivity].
Qed.
Definition same_groups (ks ks' : list gclass) : Prop := map k_group ks' = map k_group ks.
Lemma same_groups_group ks ks' g : same_groups ks ks' -> geom_group_of ks' g = geom_group_of ks g.
Proof.
  intros H. unfold geom_group_of. destruct (g_group g); [reflexivity|]. destruct (g_class g) as [k|]; [|reflexivity].
  assert (E : nth_error (map k_group ks') k = nth_error (map k_group ks) k) by (rewrite H; reflexivity). rewrite !nth_error_map in E.
  destruct (nth_error ks' k), (nth_error ks k); cbn in E; congruence.
Qed.
Lemma update_class_nth k f ks j : nth_error (update_class k f ks) j = if Nat.eqb j k then option_map f (nth_error ks j) else nth_error ks j.
Proof.
  revert k j. induction ks as [|c r IH]; intros k j; [destruct k, j; cbn; try reflexivity; destruct (Nat.eqb j k); reflexivity|].
  destruct k, j; cbn; try reflexivity. apply IH.
Qed.
Lemma update_class_groups k f ks : (forall c, k_group (f c) = k_group c) -> same_groups ks (update_class k f ks).
Proof. intros H. unfold same_groups. revert k. induction ks as [|c r IH]; intros k; [destruct k; reflexivity|]. destruct k; cbn; [rewrite H; reflexivity|rewrite IH; reflexivity]. Qed.
Fixpoint fade_n (n : nat) (alpha : R) (c : color) : color := match n with O => c | S n' => fade_n n' alpha (fade alpha c) end.
Lemma fade_n_alpha n alpha c : col_a (fade_n n alpha c) = (col_a c * alpha ^ n)%R /\ col_rgb (fade_n n alpha c) = col_rgb c.
Proof. revert c. induction n as [|n IH]; intros c; cbn; [split; [ring|reflexivity]|]. destruct (IH (fade alpha c)) as [E1 E2]. rewrite E1, E2. cbn. split; [ring|reflexivity]. Qed.
Definition painted (alpha : R) (g : geom) : geom := mkG (g_id g) (g_group g) (g_class g) (option_map (fade alpha) (g_rgba g)) 0 0.
Lemma borrowers_groups gg ks ks' k gs : same_groups ks ks' -> borrowers gg ks' k gs = borrowers gg ks k gs.
Proof. intros H. unfold borrowers. apply filter_ext. intros g. rewrite (same_groups_group ks ks' g H). reflexivity. Qed.
Lemma paint_spec gg alpha gs : forall ks, let '(gs', ks') := paint_geoms gg alpha ks gs in
  gs' = map (painted alpha) (filter (visibleb gg ks) gs) /\ same_groups ks ks' /\
  forall k, nth_error ks' k = option_map (fun c => mkK (k_group c) (option_map (fade_n (List.length (borrowers gg ks k gs)) alpha) (k_rgba c))) (nth_error ks k).
Proof.
  induction gs as [|g r IH]; intros ks; cbn [paint_geoms].
  - split; [reflexivity|]. split; [reflexivity|]. intros k. cbn. destruct (nth_error ks k) as [[gr [c|]]|]; reflexivity.
  - assert (Hdrop : match geom_group_of ks g with Some x => negb (x =? gg)%Z | None => false end = negb (visibleb gg ks g)) by (unfold visibleb; destruct (geom_group_of ks g); reflexivity).
    rewrite Hdrop. cbn [filter]. destruct (visibleb gg ks g) eqn:Ev; cbn [negb].
    + set (ks1 := match g_rgba g with Some _ => _ | None => _ end).
      assert (Hs1 : same_groups ks ks1).
      { unfold ks1. destruct (g_rgba g), (g_class g) as [k|]; try reflexivity. destruct (nth_error ks k) as [[gr [c|]]|]; try reflexivity. apply update_class_groups. reflexivity. }
      specialize (IH ks1). destruct (paint_geoms gg alpha ks1 r) as [gs' ks'']. destruct IH as (I1 & I2 & I3).
      split; [|split].
      * cbn [map]. f_equal. rewrite I1. f_equal. apply filter_ext. intros x. unfold visibleb. rewrite (same_groups_group ks ks1 x Hs1). reflexivity.
      * unfold same_groups in *. congruence.
      * intros k. rewrite I3, (borrowers_groups gg ks ks1 k r Hs1).
        assert (Hb : borrowers gg ks k (g :: r) = if match g_rgba g, g_class g with None, Some k' => Nat.eqb k k' | _, _ => false end then g :: borrowers gg ks k r else borrowers gg ks k r).
        { unfold borrowers. cbn [filter]. fold (visibleb gg ks g). rewrite Ev, Bool.andb_true_r. reflexivity. }
        rewrite Hb. unfold ks1. destruct (g_rgba g) as [c0|]; [reflexivity|]. destruct (g_class g) as [k'|]; [|reflexivity].
        destruct (Nat.eqb_spec k k') as [<-|Hk].
        -- destruct (nth_error ks k) as [[gr [c|]]|] eqn:Ek; cbn [k_rgba]; rewrite ?update_class_nth, ?Nat.eqb_refl, ?Ek; reflexivity.
        -- destruct (nth_error ks k') as [[gr [c|]]|]; try reflexivity. cbn [k_rgba]. rewrite update_class_nth. destruct (Nat.eqb_spec k k'); [contradiction|reflexivity].
    + specialize (IH ks). destruct (paint_geoms gg alpha ks r) as [gs' ks'']. destruct IH as (I1 & I2 & I3). split; [exact I1|]. split; [exact I2|].
      intros k. rewrite I3. replace (borrowers gg ks k (g :: r)) with (borrowers gg ks k r); [reflexivity|].
      unfold borrowers. cbn [filter]. fold (visibleb gg ks g). rewrite Ev, Bool.andb_false_r. reflexivity.
Qed.
