(** Facts about drawing and recording. *)
From Verif Require Import Base Lin Rot Problem JaxTree JaxTreeFacts Visualize SpecViz VizFacts.
Open Scope nat_scope.

(** ** persistence of markers *)
Definition same_look (m m' : marker) : Prop := mk_name m' = mk_name m /\ mk_id m' = mk_id m /\ mk_type m' = mk_type m /\ mk_size m' = mk_size m /\ mk_rgba m' = mk_rgba m.
Lemma look_refl m : same_look m m. Proof. repeat split. Qed.
Lemma look_trans a b c : same_look a b -> same_look b c -> same_look a c.
Proof. unfold same_look. intuition congruence. Qed.
Lemma step_keeps ga o z n m : assoc n (z_markers z) = Some m -> fresh ga [o] z -> exists m', assoc n (z_markers (snd (vstep ga o z))) = Some m' /\ same_look m m'.
Proof.
  intros Hm [Hf _]. destruct o as [nm sz a cb ce ty k|nm p r|q]; cbn [vstep] in *.
  - destruct (add_markers nm sz a cb ce ty k z) as [[[]|e] z'] eqn:E; [|rewrite (failed_add _ _ _ _ _ _ _ _ _ _ E); exists m; split; [exact Hm|apply look_refl]].
    cbn [fst snd] in *. destruct (Hf eq_refl) as [Hnd Hdis]. destruct (accepted_add _ _ _ _ _ _ _ _ _ E) as (_ & ms & coefs & _ & _ & -> & Hnames & _).
    rewrite <- Hnames in Hnd, Hdis. cbn [z_markers]. exists m. split; [|apply look_refl]. rewrite assoc_dict_or by exact Hnd.
    replace (assoc n ms) with (@None marker); [exact Hm|]. symmetry. apply assoc_None. intros Hin. apply (Hdis n Hin).
    apply (in_map fst (z_markers z) (n, m)). apply assoc_In_list. exact Hm.
  - unfold move_marker. destruct (assoc nm (z_markers z)) as [m0|] eqn:Em; [|exists m; split; [exact Hm|apply look_refl]]. cbn [snd z_markers].
    rewrite assoc_dict_set. destruct (String.eqb_spec n nm) as [->|]; [|exists m; split; [exact Hm|apply look_refl]].
    rewrite Hm in Em. injection Em as <-. eexists. split; [reflexivity|repeat split].
  - destruct (update_keeps ga q z) as (-> & _). exists m. split; [exact Hm|apply look_refl].
Qed.
Lemma run_keeps ga os : forall z n m, assoc n (z_markers z) = Some m -> fresh ga os z -> exists m', assoc n (z_markers (vrun ga os z)) = Some m' /\ same_look m m'.
Proof.
  induction os as [|o r IH]; intros z n m Hm Hf; [exists m; split; [exact Hm|apply look_refl]|]. destruct Hf as [Hf1 Hf2].
  destruct (step_keeps ga o z n m Hm (conj Hf1 I)) as (m1 & Hm1 & L1). destruct (IH _ n m1 Hm1 Hf2) as (m2 & Hm2 & L2).
  exists m2. split; [exact Hm2|exact (look_trans _ _ _ L1 L2)].
Qed.
Lemma fresh_app ga os1 : forall os2 z, fresh ga (os1 ++ os2) z -> fresh ga os1 z /\ fresh ga os2 (vrun ga os1 z).
Proof.
  induction os1 as [|o r IH]; intros os2 z H; [split; [exact I|exact H]|]. destruct H as [H1 H2]. destruct (IH _ _ H2) as [H3 H4]. split; [split; assumption|exact H4].
Qed.
Lemma stored_markers ga os1 nm sz a cb ce ty n os2 z0 z k nk : tidy_markers z0 ->
  fresh ga (os1 ++ VAdd nm sz a cb ce ty n :: os2) z0 -> z = vrun ga os1 z0 -> fst (vstep ga (VAdd nm sz a cb ce ty n) z) = Ok tt ->
  nth_error (names_used nm n) k = Some nk ->
  exists m col, assoc nk (z_markers (vrun ga (os1 ++ VAdd nm sz a cb ce ty n :: os2) z0)) = Some m /\
    mk_name m = nk /\ mk_id m = (z_n z + Z.of_nat k)%Z /\ mk_type m = ty /\ mk_size m = size_vector sz /\ mk_rgba m = col ++ [a] /\
    color_at cb (match ce with Some c => c | None => cb end) (coef n k) = Ok col.
Proof.
  intros Ht Hf -> Hok Hk. destruct (fresh_app _ _ _ _ Hf) as [_ [Hf1 Hf2]]. unfold vrun. rewrite fold_left_app. cbn [fold_left].
  fold (vrun ga os1 z0) in *. set (z := vrun ga os1 z0) in *. cbn [vstep] in *.
  destruct (add_markers nm sz a cb ce ty n z) as [[[]|e] z'] eqn:E; [|discriminate]. cbn [fst snd] in *.
  destruct (Hf1 eq_refl) as [Hnd Hdis]. destruct (accepted_add _ _ _ _ _ _ _ _ _ E) as (Hn0 & ms & coefs & El & Hlen & Ez & Hnames & Hms).
  destruct (linspace_spec n Hn0) as (l & El' & Hll & Hcs). rewrite El in El'. injection El' as <-.
  assert (Hkn : k < Z.to_nat n).
  { rewrite <- Hlen, <- (map_length fst), Hnames. apply nth_error_Some. congruence. }
  destruct (nth_error coefs k) as [c|] eqn:Ec; [|apply nth_error_None in Ec; lia].
  destruct (Hms k c Ec) as (nk' & col & H1 & H2 & H3). rewrite Hk in H1. injection H1 as <-.
  assert (Ha : assoc nk (z_markers z') = Some (made (size_vector sz) a ty (z_n z) k nk col)).
  { rewrite Ez. cbn [z_markers]. rewrite <- Hnames in Hnd. rewrite assoc_dict_or by exact Hnd.
    rewrite (assoc_In nk _ ms Hnd (nth_error_In _ _ H3)). reflexivity. }
  destruct (run_keeps ga os2 z' nk _ Ha Hf2) as (m & Hm & (L1 & L2 & L3 & L4 & L5)).
  exists m, col. split; [exact Hm|]. cbn in L1, L2, L3, L4, L5. rewrite (Hcs k c Ec) in H2. repeat split; assumption.
Qed.

(** ** drawing *)
Lemma py_set_spec {A} (l : list A) i v : (0 <= i)%Z -> (i < Z.of_nat (List.length l))%Z ->
  exists l', py_set l i v = Ok l' /\ List.length l' = List.length l /\ forall j, nth_error l' j = if Nat.eqb j (Z.to_nat i) then Some v else nth_error l j.
Proof.
  intros H0 H1. unfold py_set. destruct (Z.ltb_spec i 0); [lia|]. destruct (Z.ltb_spec i 0); [lia|]. destruct (Z.leb_spec (Z.of_nat (List.length l)) i); [lia|]. cbn [orb].
  eexists. split; [reflexivity|]. set (k := Z.to_nat i). assert (Hk : k < List.length l) by (unfold k; lia). split.
  - rewrite app_length, firstn_length. cbn [List.length]. rewrite skipn_length. lia.
  - intros j. clearbody k. clear -Hk. revert j l Hk. induction k as [|k IH]; intros j l Hk; destruct l as [|x l]; cbn [List.length] in Hk; try lia.
    + cbn. destruct j; reflexivity.
    + destruct j as [|j]; [reflexivity|]. cbn [firstn skipn app nth_error Nat.eqb]. apply IH. lia.
Qed.
Lemma np_idx_some {A} (l : list A) i : (0 <= i)%Z -> (i < Z.of_nat (List.length l))%Z -> exists x, np_idx l i = Ok x.
Proof. intros H0 H1. destruct (np_idx_ok l (Z.to_nat i)) as (x & _ & E); [lia|]. rewrite Z2Nat.id in E by lia. eauto. Qed.
Lemma init_shows m g : init_geom m = Ok g -> shows m g.
Proof.
  unfold init_geom, shows. destruct (rot_matrix m) as [M|]; cbn [bind]; [|discriminate]. destruct (_ && _)%bool; [|discriminate]. intros H. injection H as <-. eauto.
Qed.
Lemma draw_spec n ms : forall s, NoDup (map (fun e => mk_id (snd e)) ms) -> Forall (fun e => drawable (snd e)) ms ->
  (forall e, In e ms -> 0 <= sc_ngeom s - n + mk_id (snd e) < Z.of_nat (List.length (sc_slots s)))%Z ->
  exists sl, draw_markers n ms s = (Ok tt, mkScn sl (sc_ngeom s)) /\ List.length sl = List.length (sc_slots s) /\
    (forall e, In e ms -> exists g, nth_error sl (Z.to_nat (sc_ngeom s - n + mk_id (snd e))) = Some g /\ shows (snd e) g) /\
    (forall j, (forall e, In e ms -> Z.of_nat j <> sc_ngeom s - n + mk_id (snd e))%Z -> nth_error sl j = nth_error (sc_slots s) j).
Proof.
  induction ms as [|[k m] r IH]; intros s Hnd Hd Hr.
  - exists (sc_slots s). destruct s. split; [reflexivity|]. split; [reflexivity|]. split; [intros e []|reflexivity].
  - cbn [draw_markers]. inversion Hnd as [|? ? Hn1 Hn2]; subst. inversion Hd as [|? ? Hd1 Hd2]; subst. cbn [snd] in *.
    destruct (Hr (k, m) (or_introl eq_refl)) as [H0 H1]. cbn [snd] in H0, H1.
    destruct (np_idx_some (sc_slots s) _ H0 H1) as [x Ex]. rewrite Ex. destruct Hd1 as [g Eg]. rewrite Eg.
    destruct (py_set_spec (sc_slots s) _ g H0 H1) as (l' & El & Hl & Hnth). rewrite El.
    destruct (IH (mkScn l' (sc_ngeom s)) Hn2 Hd2) as (sl & E & Hlen & Hin & Hout).
    { intros e He. cbn [sc_ngeom sc_slots]. rewrite Hl. apply Hr. right. exact He. }
    cbn [sc_ngeom sc_slots] in *. exists sl. split; [exact E|]. split; [congruence|]. split.
    + intros e [<-|He]; [|apply Hin; exact He]. exists g. cbn [snd]. split; [|apply init_shows; exact Eg].
      rewrite Hout.
      * rewrite Hnth, Nat.eqb_refl. reflexivity.
      * intros e He Hc. rewrite Z2Nat.id in Hc by lia. apply Hn1. apply in_map_iff. exists e. split; [lia|exact He].
    + intros j Hj. rewrite Hout by (intros e He; apply Hj; right; exact He). rewrite Hnth.
      destruct (Nat.eqb_spec j (Z.to_nat (sc_ngeom s - n + mk_id m))) as [->|]; [|reflexivity].
      exfalso. apply (Hj (k, m) (or_introl eq_refl)). cbn [snd]. lia.
Qed.
Lemma ids_nodup z : tidy_markers z -> NoDup (map (fun e => mk_id (snd e)) (z_markers z)).
Proof.
  intros [Hi _ _ _ _]. unfold ids in Hi. rewrite Hi. apply FinFun.Injective_map_NoDup; [intros a b; apply Nat2Z.inj|apply seq_NoDup].
Qed.
Lemma id_range z e : tidy_markers z -> In e (z_markers z) -> (0 <= mk_id (snd e) < z_n z)%Z.
Proof.
  intros [Hi Hn _ _ _] He. unfold ids in Hi. apply (in_map (fun e => mk_id (snd e))) in He. rewrite Hi in He. apply in_map_iff in He as (k & <- & Hk). apply in_seq in Hk. rewrite Hn. lia.
Qed.

(** ** update *)
Lemma update_viewer ga q z s : tidy_markers z -> z_viewer z = Some s -> Forall (fun e => drawable (snd e)) (z_markers z) ->
  List.length (t_data q) = z_nq z -> (z_n z <= Z.of_nat (List.length (sc_slots s)))%Z ->
  exists s', z_viewer (snd (viz_update ga q z)) = Some s' /\ sc_ngeom s' = z_n z /\ z_qpos (snd (viz_update ga q z)) = t_data q /\
    (forall e, In e (z_markers z) -> exists g, nth_error (sc_slots s') (Z.to_nat (mk_id (snd e))) = Some g /\ shows (snd e) g) /\
    (forall j, Z.to_nat (z_n z) <= j -> nth_error (sc_slots s') j = nth_error (sc_slots s) j).
Proof.
  intros Ht Hs Hd Hq Hcap. pose proof (tm_view z Ht s Hs) as Hng.
  destruct (draw_spec (z_n z) (z_markers z) s (ids_nodup z Ht) Hd) as (sl & E & Hlen & Hin & Hout).
  { intros e He. pose proof (id_range z e Ht He). lia. }
  unfold viz_update. rewrite Hq, Nat.eqb_refl. cbn [negb]. rewrite Hs, E. rewrite Hng in *.
  assert (Hfin : forall zz, z_viewer zz = Some (mkScn sl (z_n z)) -> z_qpos zz = t_data q ->
    exists s', z_viewer zz = Some s' /\ sc_ngeom s' = z_n z /\ z_qpos zz = t_data q /\
    (forall e, In e (z_markers z) -> exists g, nth_error (sc_slots s') (Z.to_nat (mk_id (snd e))) = Some g /\ shows (snd e) g) /\
    (forall j, Z.to_nat (z_n z) <= j -> nth_error (sc_slots s') j = nth_error (sc_slots s) j)).
  { intros zz Hv Hqp. exists (mkScn sl (z_n z)). split; [exact Hv|]. split; [reflexivity|]. split; [exact Hqp|]. split.
    - intros e He. destruct (Hin e He) as (g & Hg & Sg). exists g. split; [|exact Sg]. cbn [sc_slots]. rewrite <- Hg. f_equal. lia.
    - intros j Hj. apply Hout. intros e He. pose proof (id_range z e Ht He). lia. }
  destruct (z_renderer z) as [t|]; [|apply Hfin; reflexivity].
  destruct (draw_markers _ _ (update_scene _ t)) as [[[]|] t1]; destruct (z_frames z); apply Hfin; reflexivity.
Qed.

Lemma nth_error_firstn' {A} (l : list A) n k : k < n -> nth_error (firstn n l) k = nth_error l k.
Proof. revert l k. induction n as [|n IH]; intros l k H; [lia|]. destruct l; [destruct k; reflexivity|]. destruct k; [reflexivity|]. cbn. apply IH. lia. Qed.
Lemma draw_length n ms : forall s, List.length (sc_slots (snd (draw_markers n ms s))) = List.length (sc_slots s).
Proof.
  induction ms as [|[k m] r IH]; intros s; [reflexivity|]. cbn [draw_markers]. destruct (np_idx _ _) eqn:E1; [|reflexivity]. destruct (init_geom m); [|reflexivity].
  destruct (py_set _ _ _) as [sl|] eqn:E; [|reflexivity]. rewrite IH. cbn.
  unfold py_set in E. set (j := if (_ <? 0)%Z then _ else _) in E. destruct ((j <? 0)%Z || _)%bool eqn:Ej; [discriminate|]. match type of E with Ok ?x = Ok ?y => assert (Ey : x = y) by congruence end. rewrite <- Ey.
  apply Bool.orb_false_iff in Ej as [E2 E3]. apply Z.ltb_ge in E2. apply Z.leb_gt in E3.
  rewrite app_length, firstn_length. cbn [List.length]. rewrite skipn_length. lia.
Qed.

(** The frame recorded by an update: the last geoms are the markers. *)
Lemma recorded_frame ga q z s fr : tidy_markers z -> z_renderer z = Some s -> (forall v, z_viewer z = Some v -> (z_n z <= Z.of_nat (List.length (sc_slots v)))%Z) -> z_frames z = Some fr ->
  Forall (fun e => drawable (snd e)) (z_markers z) -> List.length (t_data q) = z_nq z ->
  List.length (z_markers z) <= List.length (ga (t_data q)) -> List.length (ga (t_data q)) <= List.length (sc_slots s) ->
  let G := ga (t_data q) in
  exists z' f, viz_update ga q z = (Ok tt, z') /\ z_frames z' = Some (fr ++ [f]) /\ List.length f = List.length G /\
    (forall j, j < List.length G - List.length (z_markers z) -> nth_error f j = nth_error G j) /\
    (forall e, In e (z_markers z) -> exists g, nth_error f (List.length G - List.length (z_markers z) + Z.to_nat (mk_id (snd e))) = Some g /\ shows (snd e) g).
Proof.
  intros Ht Hs Hv Hfr Hd Hq Hcap Hmax G. unfold viz_update. rewrite Hq, Nat.eqb_refl. cbn [negb]. fold G.
  assert (Hview : exists v', match z_viewer z with None => (Ok tt, None) | Some s0 => let '(r, s') := draw_markers (z_n z) (z_markers z) s0 in (r, Some s') end = (Ok tt, v')).
  { destruct (z_viewer z) as [v|] eqn:Ev; [|eauto]. pose proof (tm_view z Ht v Ev) as Hng.
    destruct (draw_spec (z_n z) (z_markers z) v (ids_nodup z Ht) Hd) as (slv & -> & _); [|eauto].
    intros e He. pose proof (id_range z e Ht He). specialize (Hv v eq_refl). lia. }
  destruct Hview as [v' ->]. rewrite Hs. fold G.
  assert (Hlen0 : List.length (sc_slots (update_scene G s)) = List.length (sc_slots s)).
  { cbn. rewrite app_length, skipn_length. fold G in Hmax. lia. }
  destruct (draw_spec (z_n z) (z_markers z) (update_scene G s) (ids_nodup z Ht) Hd) as (sl & E & Hlen & Hin & Hout).
  { intros e He. pose proof (id_range z e Ht He). rewrite Hlen0. cbn [sc_ngeom update_scene]. pose proof (tm_n z Ht). fold G in Hcap, Hmax. lia. }
  rewrite E, Hfr. do 2 eexists. split; [reflexivity|]. split; [reflexivity|]. cbn [render sc_slots sc_ngeom update_scene].
  unfold render. cbn [sc_slots sc_ngeom]. rewrite Nat2Z.id. fold G in Hcap, Hmax.
  assert (Hl : List.length (firstn (List.length G) sl) = List.length G) by (rewrite firstn_length; lia).
  pose proof (tm_n z Ht) as Hn. cbn [sc_ngeom update_scene] in Hin, Hout.
  split; [exact Hl|]. split.
  - intros j Hj. rewrite nth_error_firstn' by lia. rewrite Hout.
    + cbn [sc_slots]. apply nth_error_app1. lia.
    + intros e He. pose proof (id_range z e Ht He). lia.
  - intros e He. destruct (Hin e He) as (g & Hg & Sg). exists g. split; [|exact Sg]. pose proof (id_range z e Ht He).
    rewrite nth_error_firstn' by lia. rewrite <- Hg. f_equal. lia.
Qed.

(** ** frames over histories *)
Lemma step_frames ga o z fr s : z_frames z = Some fr -> z_renderer z = Some s -> let '(r, z') := vstep ga o z in
  (exists s', z_renderer z' = Some s') /\ z_filename z' = z_filename z /\
  match o, r with VUpdate _, Ok _ => exists f, z_frames z' = Some (fr ++ [f]) | _, _ => z_frames z' = Some fr end.
Proof.
  intros Hf Hs. destruct o as [nm sz a cb ce ty n|nm p r|q]; cbn [vstep].
  - destruct (add_markers nm sz a cb ce ty n z) as [[[]|e] z'] eqn:E.
    + destruct (accepted_add _ _ _ _ _ _ _ _ _ E) as (_ & ms & coefs & _ & _ & -> & _). cbn. rewrite Hs. cbn. eauto.
    + rewrite (failed_add _ _ _ _ _ _ _ _ _ _ E). eauto.
  - unfold move_marker. destruct (assoc nm (z_markers z)); cbn; eauto.
  - unfold viz_update. destruct (negb _); [cbn; eauto|].
    destruct (match z_viewer z with None => _ | Some s0 => _ end) as [r1 v1]. destruct r1 as [[]|]; [|cbn; eauto]. rewrite Hs.
    destruct (draw_markers _ _ (update_scene _ s)) as [[[]|] t1]; rewrite Hf; cbn; eauto.
Qed.
Lemma run_frames ga os : forall z fr s, z_frames z = Some fr -> z_renderer z = Some s ->
  exists fr' s', z_frames (vrun ga os z) = Some (fr ++ fr') /\ z_renderer (vrun ga os z) = Some s' /\ z_filename (vrun ga os z) = z_filename z /\ List.length fr' = updates_done ga os z.
Proof.
  induction os as [|o r IH]; intros z fr s Hf Hs; cbn [vrun fold_left updates_done]; fold (vrun ga).
  - exists [], s. rewrite app_nil_r. repeat split; assumption.
  - pose proof (step_frames ga o z fr s Hf Hs) as H. destruct (vstep ga o z) as [x z'] eqn:E. destruct H as ((s' & Hs') & Hn & H). cbn [fst snd].
    assert (Hk : exists k, z_frames z' = Some (fr ++ k) /\ List.length k = match o, x with VUpdate _, Ok _ => 1 | _, _ => 0 end).
    { destruct o; [exists []; rewrite app_nil_r; split; [exact H|reflexivity]|exists []; rewrite app_nil_r; split; [exact H|reflexivity]|].
      destruct x; [destruct H as [f H]; exists [f]; split; [exact H|reflexivity]|exists []; rewrite app_nil_r; split; [exact H|reflexivity]]. }
    destruct Hk as (k & Hk & Hlen). destruct (IH z' _ s' Hk Hs') as (fr' & s2 & H1 & H2 & H3 & H4).
    exists (k ++ fr'), s2. rewrite app_assoc. split; [exact H1|]. split; [exact H2|]. split; [rewrite <- Hn; exact H3|]. rewrite app_length, Hlen, H4. destruct o; try reflexivity; cbn [updates_done]; rewrite E; destruct x; reflexivity.
Qed.
