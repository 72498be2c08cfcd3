(** Contacts next to their geoms; distances. *)
From Verif Require Import Base Lin LinFacts Mjx Rot FrameJac Collide SpecCollision SpecTree SpecShape SpecContact FrameFacts CollisionPairs QPFacts CollideFacts.
Open Scope R_scope.
Open Scope Z_scope.

Definition arrays (l : list ((Z * Z) * contact)) : contacts :=
  mkCs (map fst l) (map (fun x => ct_dist (snd x)) l) (map (fun x => ct_pos (snd x)) l) (map (fun x => ct_frame (snd x)) l).
Lemma cat_arrays ls : cat_contacts (map arrays ls) = arrays (List.concat ls).
Proof.
  unfold cat_contacts, arrays. f_equal; rewrite flat_map_concat_map, map_map, concat_map; reflexivity.
Qed.
Lemma repeat_map {A B} (b : B) (l : list A) : repeat b (List.length l) = map (fun _ => b) l.
Proof. induction l; cbn; congruence. Qed.

Section Run.
Context (T : colltab) (m : mjmodel) (d : mjdata).
Definition rep (k : fkey) (p : Z * Z) : list ((Z * Z) * contact) :=
  match T (k_types k) with Some (_, f) => map (fun c => (p, c)) (f m d k p) | None => [] end.
Lemma rep_map {B} (f : contact -> B) n F k g : T (k_types k) = Some (n, F) ->
  map (fun x => f (snd x)) (flat_map (rep k) g) = map f (flat_map (F m d k) g).
Proof.
  intros E. unfold rep. rewrite E. induction g as [|p g IH]; [reflexivity|]. cbn. rewrite !map_app, IH, map_map. reflexivity.
Qed.
Lemma run_group_ok k g n f : colltab_ok T -> T (k_types k) = Some (n, f) -> (1 <= n)%nat ->
  run_group T m d (k, g) = Ok (k_condim k, arrays (flat_map (rep k) g)).
Proof.
  intros HT E Hn. unfold run_group, arrays. rewrite !(rep_map _ n f k g E). rewrite E. f_equal. f_equal. f_equal.
  transitivity (flat_map (fun p => repeat p n) g).
  - destruct (Nat.ltb_spec 1 n); [reflexivity|]. assert (n = 1)%nat by lia. subst n. clear. induction g as [|p g IH]; cbn; [reflexivity|]. f_equal. exact IH.
  - unfold rep. rewrite E. induction g as [|p g IH]; [reflexivity|]. cbn. rewrite map_app, <- IH. f_equal. rewrite map_map. cbn. rewrite <- (repeat_map p (f m d k p)). f_equal. symmetry. eapply HT. exact E.
Qed.
End Run.

(** Insertion sort. *)
Lemma zinsert_perm x l : Permutation (zinsert x l) (x :: l).
Proof. induction l as [|y l IH]; cbn; [reflexivity|]. destruct (x <=? y); [reflexivity|]. rewrite IH. apply perm_swap. Qed.
Lemma zsort_perm l : Permutation (zsort l) l.
Proof. induction l as [|x l IH]; cbn; [reflexivity|]. rewrite zinsert_perm. now constructor. Qed.
Lemma zinsert_sorted x l : StronglySorted Z.le l -> StronglySorted Z.le (zinsert x l).
Proof.
  induction 1 as [|y l H IH F]; cbn; [repeat constructor|]. destruct (Z.leb_spec x y).
  - constructor; [now constructor|]. constructor; [lia|]. eapply Forall_impl; [|exact F]. cbn. lia.
  - constructor; [exact IH|]. apply (Permutation_Forall (Permutation_sym (zinsert_perm x l))). constructor; [lia|exact F].
Qed.
Lemma zsort_sorted l : StronglySorted Z.le (zsort l).
Proof. induction l as [|x l IH]; cbn; [constructor|]. now apply zinsert_sorted. Qed.

(** Grouping by a key and listing the groups loses nothing. *)
Lemma perm_by_key {A} (key : A -> Z) (l : list A) : forall ks, NoDup ks -> (forall x, In x l -> In (key x) ks) ->
  Permutation (flat_map (fun k => filter (fun x => k =? key x) l) ks) l.
Proof.
  induction l as [|x l IH]; intros ks N H.
  - clear. induction ks as [|k ks IHk]; [reflexivity|]. cbn. exact IHk.
  - destruct (in_split (key x) ks (H x (or_introl eq_refl))) as (a & b & ->). pose proof (NoDup_remove_2 _ _ _ N) as N2.
    assert (E : forall c, ~ In (key x) c -> flat_map (fun k => filter (fun y => k =? key y) (x :: l)) c = flat_map (fun k => filter (fun y => k =? key y) l) c).
    { intros c Hc. rewrite !flat_map_concat_map. f_equal. apply map_ext_in. intros k Hk. cbn. destruct (Z.eqb_spec k (key x)); [congruence|reflexivity]. }
    rewrite flat_map_app. cbn [flat_map]. rewrite (E a), (E b) by (intros C; apply N2, in_or_app; auto). cbn [filter]. rewrite Z.eqb_refl.
    specialize (IH (a ++ key x :: b) N (fun y Hy => H y (or_intror Hy))). rewrite flat_map_app in IH. cbn [flat_map] in IH. cbn [app]. rewrite <- Permutation_middle. now constructor.
Qed.
Lemma zassoc_get {A} k (d : list (Z * list A)) : zassoc k d = get Z.eqb k d.
Proof. induction d as [|[k' v] d IH]; cbn; [reflexivity|]. now rewrite IH. Qed.
Lemma by_condim_get gs k : zassoc k (by_condim gs) = map snd (filter (fun g => k =? fst g) gs).
Proof.
  unfold by_condim. assert (G : forall gs d, zassoc k (fold_left (fun d g => dict_append Z.eqb (fst g) (snd g) d) gs d) = zassoc k d ++ map snd (filter (fun g : Z * contacts => k =? fst g) gs)).
  { clear. induction gs as [|g gs IH]; intros d; cbn; [now rewrite app_nil_r|]. rewrite IH.
    rewrite !zassoc_get, (get_append _ Z.eqb_eq). destruct (k =? fst g); cbn; [now rewrite <- app_assoc|reflexivity]. }
  apply (G gs []).
Qed.
Lemma by_condim_keys gs : NoDup (map fst (by_condim gs)) /\ forall g, In g gs -> In (fst g) (map fst (by_condim gs)).
Proof.
  unfold by_condim. assert (G : forall gs (d : list (Z * list contacts)), NoDup (map fst d) ->
    NoDup (map fst (fold_left (fun d g => dict_append Z.eqb (fst g) (snd g) d) gs d)) /\
    (forall k, In k (map fst d) -> In k (map fst (fold_left (fun d (g : Z * contacts) => dict_append Z.eqb (fst g) (snd g) d) gs d))) /\
    forall g, In g gs -> In (fst g) (map fst (fold_left (fun d (g : Z * contacts) => dict_append Z.eqb (fst g) (snd g) d) gs d))).
  { clear. induction gs as [|g gs IH]; intros d N; cbn; [repeat split; auto; intros g []|].
    destruct (IH (dict_append Z.eqb (fst g) (snd g) d) (append_nodup _ Z.eqb_eq _ _ _ N)) as (A & B & C). split; [exact A|].
    assert (K : forall k, k = fst g \/ In k (map fst d) -> In k (map fst (dict_append Z.eqb (fst g) (snd g) d))).
    { intros k. destruct (append_keys _ Z.eqb_eq (fst g) (snd g) d) as [[-> H]|[-> H]]; intros [->|Hk]; auto; apply in_or_app; cbn; auto. }
    split; [auto|]. intros g0 [->|H]; auto. }
  destruct (G gs [] ltac:(constructor)) as (A & _ & B). auto.
Qed.

Lemma sorted_app {A} (R : A -> A -> Prop) a b : StronglySorted R a -> StronglySorted R b -> (forall x y, In x a -> In y b -> R x y) -> StronglySorted R (a ++ b).
Proof.
  induction 1 as [|x a H IH F]; intros Hb Hx; [exact Hb|]. cbn. constructor; [apply IH; auto with *|]. apply Forall_app. split; [exact F|]. rewrite Forall_forall. intros y Hy. apply Hx; cbn; auto.
Qed.
Lemma sorted_const {A} (f : A -> Z) k l : (forall x, In x l -> f x = k) -> StronglySorted Z.le (map f l).
Proof.
  induction l as [|x l IH]; intros H; cbn; constructor; auto with *. rewrite Forall_forall. intros y Hy. apply in_map_iff in Hy. destruct Hy as (z & <- & Hz). rewrite (H x), (H z); cbn; auto; lia.
Qed.
Lemma sorted_groups {A} (f : A -> Z) (F : Z -> list A) ks : StronglySorted Z.le ks -> (forall k x, In x (F k) -> f x = k) -> StronglySorted Z.le (map f (flat_map F ks)).
Proof.
  intros S H. induction S as [|k ks S IH Fk]; cbn; [constructor|]. rewrite map_app. apply sorted_app; [apply (sorted_const f k); auto|exact IH|].
  intros a b Ha Hb. apply in_map_iff in Ha, Hb. destruct Ha as (x & <- & Hx). destruct Hb as (y & <- & Hy). apply in_flat_map in Hy. destruct Hy as (k' & Hk' & Hy).
  rewrite (H _ _ Hx), (H _ _ Hy). rewrite Forall_forall in Fk. auto.
Qed.
Lemma filter_map_swap {A B} (g : A -> B) (p : B -> bool) l : filter p (map g l) = map g (filter (fun x => p (g x)) l).
Proof. induction l as [|x l IH]; cbn; [reflexivity|]. destruct (p (g x)); cbn; now rewrite IH. Qed.
Lemma flat_map_flat_map {A B C} (f : A -> list B) (g : B -> list C) l : flat_map g (flat_map f l) = flat_map (fun x => flat_map g (f x)) l.
Proof. induction l as [|x l IH]; cbn; [reflexivity|]. now rewrite flat_map_app, IH. Qed.

(** All contacts computed for a list of geom pairs. *)
Lemma contacts_computed T m d ps : wf_geoms m -> Forall (geom_pair m) ps -> full_table T m ps ->
  exists l, compute_collision_pairs T m d ps = Ok (arrays l) /\
    Permutation l (flat_map (fun p => rep T m d (key_of m p) p) (map (orient m) ps)) /\
    StronglySorted Z.le (map (fun x => contact_dim m (fst x)) l).
Proof.
  intros Hm Hp [HT HF]. destruct ps as [|p0 ps0]; [exists []; repeat split; constructor|]. remember (p0 :: ps0) as ps eqn:Eps.
  assert (U : compute_collision_pairs T m d ps = (do groups <- geom_groups m ps; do cs <- mapM (run_group T m d) groups; let cg := by_condim cs in Ok (cat_contacts (flat_map (fun k => zassoc k cg) (zsort (map fst cg)))))) by (rewrite Eps; reflexivity).
  rewrite U. clear U. destruct (grouping m ps Hm Hp) as (gs & Eg & Pg & Dg). rewrite Eg. cbn [bind].
  set (gl := fun g : fkey * list (Z * Z) => flat_map (rep T m d (fst g)) (snd g)).
  assert (Kd : forall g, In g gs -> forall p, In p (snd g) -> fst g = key_of m p /\ In p (map (orient m) ps)).
  { intros [k g] Hg p Hpg. split; [apply key_describes_iff; now apply (Dg k g Hg)|]. eapply Permutation_in; [exact Pg|]. apply in_concat. exists g. split; [|exact Hpg]. change g with (snd (k, g)). now apply in_map. }
  assert (EM : mapM (run_group T m d) gs = Ok (map (fun g => (k_condim (fst g), arrays (gl g))) gs)).
  { apply mapM_ok. assert (G : Forall (fun g => run_group T m d g = Ok (k_condim (fst g), arrays (gl g))) gs).
    { rewrite Forall_forall. intros [k g] Hg. destruct (Dg k g Hg) as [Hne _]. destruct g as [|p g]; [congruence|]. destruct (Kd _ Hg p (or_introl eq_refl)) as [Ek Hin].
      apply in_map_iff in Hin. destruct Hin as (p' & <- & Hp'). destruct (HF p' Hp') as (n & f & Et & Hn). cbn [fst] in Ek. apply (run_group_ok T m d k _ n f HT); [|exact Hn]. rewrite Ek. exact Et. }
    clear - G. induction G; cbn; constructor; auto. }
  rewrite EM. cbn [bind]. cbv zeta. set (cs := map (fun g => (k_condim (fst g), arrays (gl g))) gs). set (ks := zsort (map fst (by_condim cs))).
  set (F := fun k => flat_map gl (filter (fun g => k =? k_condim (fst g)) gs)).
  assert (EL : flat_map (fun k => zassoc k (by_condim cs)) ks = map arrays (flat_map (fun k => map gl (filter (fun g => k =? k_condim (fst g)) gs)) ks)).
  { rewrite (flat_map_concat_map (fun k => map gl _)), concat_map, map_map, <- flat_map_concat_map. apply flat_map_ext. intros k. rewrite by_condim_get. unfold cs. rewrite filter_map_swap. cbn [fst]. rewrite !map_map. reflexivity. }
  rewrite EL, cat_arrays. exists (flat_map F ks). split; [|split].
  - do 2 f_equal. unfold F. clearbody ks. clear. induction ks as [|k ks IH]; [reflexivity|]. cbn [flat_map]. rewrite concat_app, IH. f_equal. symmetry. apply flat_map_concat_map.
  - unfold F. rewrite <- (flat_map_flat_map (fun k => filter (fun g => k =? k_condim (fst g)) gs) gl). destruct (by_condim_keys cs) as [N I].
    rewrite (Permutation_flat_map gl (perm_by_key (fun g => k_condim (fst g)) gs ks (Permutation_NoDup (Permutation_sym (zsort_perm _)) N) ltac:(
      intros g Hg; eapply Permutation_in; [apply Permutation_sym, zsort_perm|]; apply (I (k_condim (fst g), arrays (gl g))); unfold cs; apply in_map_iff; exists g; split; [reflexivity|exact Hg]))).
    rewrite <- (Permutation_flat_map _ Pg). rewrite flat_map_concat_map with (l := List.concat _), concat_map, map_map.
    assert (E : flat_map gl gs = List.concat (List.concat (map (fun x => map (fun p => rep T m d (key_of m p) p) (snd x)) gs))); [|rewrite E; reflexivity].
    clear - Kd. induction gs as [|g gs IH]; [reflexivity|]. cbn. rewrite concat_app, <- IH by auto with *. f_equal. unfold gl. rewrite flat_map_concat_map. f_equal. apply map_ext_in. intros p Hp0. destruct (Kd g (or_introl eq_refl) p Hp0) as [-> _]. reflexivity.
  - apply sorted_groups; [apply zsort_sorted|]. intros k x Hx. unfold F in Hx. apply in_flat_map in Hx. destruct Hx as (g & Hg & Hx). apply filter_In in Hg. destruct Hg as [Hg Hk]. apply Z.eqb_eq in Hk.
    unfold gl in Hx. apply in_flat_map in Hx. destruct Hx as (p & Hpg & Hx). destruct (Kd g Hg p Hpg) as [Ek _]. subst k. rewrite Ek. cbn. unfold rep in Hx. destruct (T _) as [[n f]|]; [|destruct Hx]. apply in_map_iff in Hx. destruct Hx as (c & <- & _). reflexivity.
Qed.

Lemma rep_reports T m d ps p : colltab_ok T -> (forall q, In q ps -> exists n f, T (ent (m_geom_type m) (fst (orient m q)), ent (m_geom_type m) (snd (orient m q))) = Some (n, f) /\ (1 <= n)%nat) ->
  In p ps -> reports T m d (orient m p) (rep T m d (key_of m (orient m p)) (orient m p)).
Proof.
  intros HT HF Hp. destruct (HF p Hp) as (n & f & E & Hn). exists n, f, (key_of m (orient m p)). split; [now apply key_describes_iff|]. split; [exact E|]. split; [exact Hn|]. split; [eapply HT; exact E|]. unfold rep. cbn [key_of k_types]. now rewrite E.
Qed.
Lemma contacts_attached T m d ps : wf_geoms m -> Forall (geom_pair m) ps -> full_table T m ps ->
  exists cs l rs, compute_collision_pairs T m d ps = Ok cs /\ side_by_side cs l /\
    Forall2 (reports T m d) (map (orient m) ps) rs /\ Permutation l (List.concat rs) /\
    StronglySorted Z.le (map (fun x => contact_dim m (fst x)) l).
Proof.
  intros Hm Hp HT. destruct (contacts_computed T m d ps Hm Hp HT) as (l & E & P & S). exists (arrays l), l, (map (fun p => rep T m d (key_of m p) p) (map (orient m) ps)).
  split; [exact E|]. split; [constructor|]. split; [|split; [now rewrite P, flat_map_concat_map|exact S]].
  destruct HT as [HT HF]. clear - HT HF. assert (G : forall qs, (forall q, In q qs -> In q ps) -> Forall2 (reports T m d) (map (orient m) qs) (map (fun p => rep T m d (key_of m p) p) (map (orient m) qs))); [|now apply G].
  intros qs. induction qs as [|q qs IH]; intros G; cbn; constructor.
  - apply (rep_reports T m d ps); auto with *.
  - apply IH. auto with *.
Qed.

(** ** get_distance *)
Lemma list_min_ok l : l <> [] -> exists x, list_min l = Ok x /\ minimum_of l x.
Proof.
  destruct l as [|x r]; [congruence|]. intros _. cbn. exists (fold_left Rmin r x). split; [reflexivity|].
  revert x. induction r as [|y r IH]; intros x; [split; cbn; [auto|intros y [<-|[]]; lra]|]. cbn [fold_left]. destruct (IH (Rmin x y)) as [I L]. split.
  - destruct I as [I|I]; [|cbn; auto]. rewrite <- I. unfold Rmin. destruct (Rle_dec x y); cbn; auto.
  - intros z [<-|[<-|H]].
    + apply Rle_trans with (Rmin x y); [apply L; cbn; auto|apply Rmin_l].
    + apply Rle_trans with (Rmin x y); [apply L; cbn; auto|apply Rmin_r].
    + apply L. cbn. auto.
Qed.
Lemma distances T m d ps : wf_geoms m -> Forall (geom_pair m) ps -> full_table T m ps -> ps <> [] ->
  Forall (fun p => ent (m_geom_type m) (fst (orient m p)) <> height_field) ps ->
  exists ds pos frames rs, get_distance T m d ps = Ok (ds, pos, frames) /\
    Forall2 (reports T m d) (map (orient m) ps) rs /\ Forall2 (fun r x => minimum_of (map (fun c => ct_dist (snd c)) r) x) rs ds /\
    pos = map (fun c => ct_pos (snd c)) (List.concat rs) /\ frames = map (fun c => ct_frame (snd c)) (List.concat rs).
Proof.
  intros Hm Hp [HT HF] Hne Hh. unfold get_distance.
  assert (G : exists os rs, mapM (distance_of T m d) ps = Ok os /\ Forall2 (reports T m d) (map (orient m) ps) rs /\
    Forall2 (fun r o => minimum_of (map (fun c => ct_dist (snd c)) r) (fst (fst o)) /\ snd (fst o) = map (fun c => ct_pos (snd c)) r /\ snd o = map (fun c => ct_frame (snd c)) r) rs os).
  { clear Hne. induction ps as [|p ps IH]; [exists [], []; repeat split; constructor|]. inversion Hp as [|? ? Hp1 Hp2]; subst. inversion Hh as [|? ? Hh1 Hh2]; subst.
    destruct IH as (os & rs & E & A & B); auto with *. destruct (HF p (or_introl eq_refl)) as (n & f & Et & Hn).
    assert (Lc : List.length (f m d (key_of m (orient m p)) (orient m p)) = n) by (eapply HT; exact Et).
    destruct (list_min_ok (map ct_dist (f m d (key_of m (orient m p)) (orient m p)))) as (x & Ex & Mx).
    { intros C. apply map_eq_nil in C. rewrite C in Lc. cbn in Lc. lia. }
    pose proof (rep_reports T m d (p :: ps) p HT HF (or_introl eq_refl)) as Rp. assert (Er : rep T m d (key_of m (orient m p)) (orient m p) = map (fun c => (orient m p, c)) (f m d (key_of m (orient m p)) (orient m p))) by (unfold rep; cbn [key_of k_types]; now rewrite Et).
    rewrite Er in Rp. eexists (_ :: os), (_ :: rs). split; [|split; [constructor; [exact Rp|exact A]|constructor; [|exact B]]].
    - cbn [mapM]. unfold distance_of at 1. rewrite (ordered_pair_ok m Hm p Hp1). cbn [bind]. rewrite (pair_key_ok m Hm _ (orient_pair m p Hp1)). cbn [bind]. cbn [key_of k_types fst].
      change mjGEOM_HFIELD with height_field. rewrite (proj2 (Z.eqb_neq _ _) Hh1). rewrite Et. change (mkK _ _ _) with (key_of m (orient m p)). rewrite Ex. cbn [bind]. rewrite E. cbn [bind]. reflexivity.
    - cbn [fst snd]. rewrite !map_map. cbn [snd]. split; [exact Mx|auto]. }
  destruct G as (os & rs & E & A & B). rewrite E. cbn [bind]. destruct os as [|o os'].
  - exfalso. inversion B; subst. inversion A as [Hx|]; subst. destruct ps; [congruence|discriminate].
  - exists (map (fun r => fst (fst r)) (o :: os')), (flat_map (fun r => snd (fst r)) (o :: os')), (flat_map snd (o :: os')), rs. split; [reflexivity|]. split; [exact A|].
    clear - B. revert B. generalize (o :: os'). clear. intros os B. induction B as [|r o rs os (H1 & H2 & H3) B IH]; [repeat split; constructor|].
    destruct IH as (I1 & I2 & I3). split; [constructor; assumption|]. cbn. rewrite !map_app, <- I2, <- I3, H2, H3. auto.
Qed.
Lemma hfield_refused T m d ps p : wf_geoms m -> Forall (geom_pair m) ps -> full_table T m ps ->
  In p ps -> ent (m_geom_type m) (fst (orient m p)) = height_field -> get_distance T m d ps = Err NotImplementedError.
Proof.
  intros Hm Hp [HT HF] Hi Hh. unfold get_distance.
  assert (G : mapM (distance_of T m d) ps = Err NotImplementedError); [|now rewrite G].
  induction ps as [|q ps IH]; [destruct Hi|]. inversion Hp as [|? ? Hq Hps]; subst.
  assert (Et0 : distance_of T m d q = (if (ent (m_geom_type m) (fst (orient m q)) =? height_field)%Z then Err NotImplementedError else
     match T (k_types (key_of m (orient m q))) with None => Err KeyError | Some (_, f) => let cs := f m d (key_of m (orient m q)) (orient m q) in
       do x <- list_min (map ct_dist cs); Ok (x, map ct_pos cs, map ct_frame cs) end)).
  { unfold distance_of. rewrite (ordered_pair_ok m Hm q Hq). cbn [bind]. rewrite (pair_key_ok m Hm _ (orient_pair m q Hq)). cbn [bind]. reflexivity. }
  cbn [mapM]. rewrite Et0. destruct (ent (m_geom_type m) (fst (orient m q)) =? height_field)%Z eqn:Eh; [reflexivity|].
  destruct Hi as [->|Hi]; [apply Z.eqb_neq in Eh; contradiction|].
  destruct (HF q (or_introl eq_refl)) as (n & f & Et & Hn).
  assert (Lc : List.length (f m d (key_of m (orient m q)) (orient m q)) = n) by (eapply HT; exact Et).
  destruct (list_min_ok (map ct_dist (f m d (key_of m (orient m q)) (orient m q)))) as (x & Ex & _).
  { intros C. apply map_eq_nil in C. rewrite C in Lc. cbn in Lc. lia. }
  change (k_types (key_of m (orient m q))) with (ent (m_geom_type m) (fst (orient m q)), ent (m_geom_type m) (snd (orient m q))).
  rewrite Et. cbn zeta. rewrite Ex. cbn [bind]. rewrite IH; auto with *.
Qed.
