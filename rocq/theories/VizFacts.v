(** Facts about markers and scenes. *)
From Coq Require Import Nsatz.
From Verif Require Import Base Lin Rot RotFacts Problem JaxTree JaxTreeFacts Visualize SpecViz.
Open Scope nat_scope.

(** ** rotation matrices *)
Lemma rot_matrix_quat m w x y z : mk_rot m = mkT [4] [w; x; y; z] -> rot_matrix m = Ok (m3_list (q_mat (mkQ w x y z))).
Proof. intros H. unfold rot_matrix. rewrite H. cbn [t_shape t_data]. unfold m3_list, q_mat. cbn [m00 m01 m02 m10 m11 m12 m20 m21 m22 qw qx qy qz]. f_equal. repeat (f_equal; try ring). Qed.
Lemma q_mat_rotation q : q_norm2 q = 1%R -> is_rotation (q_mat q).
Proof.
  destruct q as [w x y z]. unfold q_norm2. cbn [qw qx qy qz]. intros H.
  unfold is_rotation, m3_mul, m3_tr, m3_id, m3_det, q_mat. cbn [m00 m01 m02 m10 m11 m12 m20 m21 m22 qw qx qy qz].
  split; [|split]; [f_equal; nsatz|f_equal; nsatz|nsatz].
Qed.
Lemma q_mat_app q p : q_norm2 q = 1%R -> m3_app (q_mat q) p = q_app q p.
Proof.
  destruct q as [w x y z], p as [a b c]. unfold q_norm2. cbn [qw qx qy qz]. intros H.
  unfold m3_app, q_app, q_mat, q_im, q_mul, q_pure, q_conj. cbn [m00 m01 m02 m10 m11 m12 m20 m21 m22 qw qx qy qz vx vy vz].
  f_equal; nsatz.
Qed.
Lemma rot_matrix_shape m : (forall d, rot_matrix m = Ok d -> (exists n k, t_shape (mk_rot m) = [n; k] /\ d = t_data (mk_rot m)) \/ (exists n, t_shape (mk_rot m) = [n] /\ List.length (t_data (mk_rot m)) = 4)) /\
  ((exists n k, t_shape (mk_rot m) = [n; k]) -> rot_matrix m = Ok (t_data (mk_rot m))) /\
  ((exists n, t_shape (mk_rot m) = [n] /\ List.length (t_data (mk_rot m)) <> 4) \/ (List.length (t_shape (mk_rot m)) <> 1 /\ List.length (t_shape (mk_rot m)) <> 2) -> rot_matrix m = Err ValueError).
Proof.
  unfold rot_matrix. destruct (mk_rot m) as [sh d]. cbn [t_shape t_data]. destruct sh as [|n [|k [|l sh]]]; (split; [|split]).
  all: try (intros ? H; discriminate); try (intros (? & ? & H); discriminate); try reflexivity.
  - intros d' H. right. exists n. split; [reflexivity|]. destruct d as [|? [|? [|? [|? [|? ?]]]]]; try discriminate. reflexivity.
  - intros [(n' & _ & H)|[H _]]; [|cbn in H; lia]. destruct d as [|? [|? [|? [|? [|? ?]]]]]; try reflexivity. cbn in H. lia.
  - intros d' H. injection H as <-. left. exists n, k. split; reflexivity.
  - intros [(n' & H & _)|[_ H]]; [discriminate|cbn in H; lia].
Qed.

(** ** linspace *)
Lemma linspace_spec n : (0 <= n)%Z -> exists l, linspace01 n = Ok l /\ List.length l = Z.to_nat n /\
  forall i c, nth_error l i = Some c -> c = (if (n =? 1)%Z then 0%R else (INR i / IZR (n - 1))%R).
Proof.
  intros Hn. unfold linspace01. destruct (Z.ltb_spec n 0); [lia|]. eexists. split; [reflexivity|]. split; [rewrite map_length, seq_length; reflexivity|].
  intros i c Hc. rewrite nth_error_map in Hc.
  destruct (nth_error (seq 0 (Z.to_nat n)) i) as [j|] eqn:E; cbn in Hc; [|discriminate].
  assert (Hi : i < Z.to_nat n) by (rewrite <- (seq_length (Z.to_nat n) 0); apply nth_error_Some; congruence).
  rewrite (nth_error_nth' _ 0) in E by (rewrite seq_length; exact Hi). rewrite seq_nth in E by exact Hi. injection E as <-. cbn in Hc. congruence.
Qed.
Lemma coef_range i n : (2 <= n)%Z -> i < Z.to_nat n -> (0 <= INR i / IZR (n - 1) <= 1)%R.
Proof.
  intros Hn Hi. assert (Hp : (0 < IZR (n - 1))%R) by (apply IZR_lt; lia). split.
  - apply Rmult_le_pos; [apply pos_INR|]. left. apply Rinv_0_lt_compat. exact Hp.
  - apply (Rmult_le_reg_r (IZR (n - 1))); [exact Hp|]. unfold Rdiv. rewrite Rmult_assoc, Rinv_l by lra. rewrite Rmult_1_r, Rmult_1_l.
    rewrite INR_IZR_INZ. apply IZR_le. lia.
Qed.

(** ** the loop *)
Definition name_at (nm : names) (i : nat) : res string := match nm with NStr s => Ok s | NList l => np_idx l (Z.of_nat i) end.
Definition color_at (cb ce : list R) (c : R) : res (list R) := np_add (vscale c cb) (vscale (1 - c) ce).
Definition made (sz : list R) (alpha : R) (ty base : Z) (i : nat) (nm : string) (col : list R) : marker :=
  mkMk nm (base + Z.of_nat i) ty sz (vzero 3) (mkT [4] [1; 0; 0; 0]%R) (col ++ [alpha]).
Lemma loop_unfold nm sz a cb ce ty base i c r d :
  marker_loop nm sz a cb ce ty base i (c :: r) d =
  match name_at nm i with
  | Err e => (Err e, d)
  | Ok n => match color_at cb ce c with
            | Err e => (Err e, d)
            | Ok col => marker_loop nm sz a cb ce ty base (S i) r (dict_set n (made sz a ty base i n col) d)
            end
  end.
Proof. reflexivity. Qed.
Lemma loop_ok nm sz a cb ce ty base coefs : forall i d d', marker_loop nm sz a cb ce ty base i coefs d = (Ok tt, d') ->
  exists ms, d' = dict_or d ms /\ List.length ms = List.length coefs /\
    forall k c, nth_error coefs k = Some c -> exists n col, name_at nm (i + k) = Ok n /\ color_at cb ce c = Ok col /\ nth_error ms k = Some (n, made sz a ty base (i + k) n col).
Proof.
  induction coefs as [|c r IH]; intros i d d' H.
  - cbn in H. injection H as <-. exists []. split; [reflexivity|]. split; [reflexivity|]. intros [|k] c Hc; discriminate.
  - rewrite loop_unfold in H. destruct (name_at nm i) as [n|] eqn:En; [|discriminate]. destruct (color_at cb ce c) as [col|] eqn:Ec; [|discriminate].
    destruct (IH _ _ _ H) as (ms & -> & Hl & Hms). exists ((n, made sz a ty base i n col) :: ms). split; [reflexivity|]. split; [cbn; congruence|].
    intros [|k] c' Hc; cbn in Hc.
    + injection Hc as <-. exists n, col. rewrite Nat.add_0_r. split; [exact En|]. split; [exact Ec|reflexivity].
    + destruct (Hms k c' Hc) as (n' & col' & H1 & H2 & H3). exists n', col'. replace (i + S k) with (S i + k) by lia. split; [exact H1|]. split; [exact H2|exact H3].
Qed.
Lemma color_len cb ce c c' : is_ok (color_at cb ce c) = is_ok (color_at cb ce c').
Proof.
  unfold color_at, np_add, bc2, vscale. rewrite !map_length. destruct (Nat.eqb (List.length cb) (List.length ce)); [reflexivity|].
  destruct cb as [|x [|y r]], ce as [|x' [|y' r']]; reflexivity.
Qed.
Lemma loop_never nm sz a cb ce ty base coefs : forall i d, (forall k, k < List.length coefs -> is_ok (name_at nm (i + k)) = true) ->
  (forall c, is_ok (color_at cb ce c) = true) -> exists d', marker_loop nm sz a cb ce ty base i coefs d = (Ok tt, d').
Proof.
  induction coefs as [|c r IH]; intros i d Hn Hc; [eexists; reflexivity|]. rewrite loop_unfold.
  pose proof (Hn 0 ltac:(cbn; lia)) as H0. rewrite Nat.add_0_r in H0. destruct (name_at nm i); [|discriminate].
  specialize (Hc c) as Hc'. destruct (color_at cb ce c); [|discriminate]. apply IH; [|exact Hc].
  intros k Hk. replace (S i + k) with (i + S k) by lia. apply Hn. cbn. lia.
Qed.
Lemma np_idx_ok {A} (l : list A) i : i < List.length l -> exists x, nth_error l i = Some x /\ np_idx l (Z.of_nat i) = Ok x.
Proof.
  intros H. unfold np_idx. destruct (nth_error l i) as [x|] eqn:E; [|apply nth_error_None in E; lia]. exists x. split; [reflexivity|].
  destruct (Z.ltb_spec (Z.of_nat i) 0); [lia|]. destruct (Z.ltb_spec (Z.of_nat i) 0); [lia|]. destruct (Z.leb_spec (Z.of_nat (List.length l)) (Z.of_nat i)); [lia|]. cbn.
  rewrite Nat2Z.id, E. reflexivity.
Qed.

(** A rejected add changes nothing. *)
Lemma failed_add nm sz a cb ce ty n z e z' : add_markers nm sz a cb ce ty n z = (Err e, z') -> z' = z.
Proof.
  unfold add_markers. set (bad := match nm with NStr _ => true | NList l => _ end).
  destruct ((1 <? n)%Z && bad)%bool eqn:Eb; [intros H; injection H as _ <-; reflexivity|].
  destruct (linspace01 n) as [coefs|] eqn:El; [|intros H; injection H as _ <-; reflexivity].
  set (sv := match sz with SzFloat x => _ | SzArr l => _ end). set (cev := match ce with Some c => _ | None => _ end).
  destruct (marker_loop _ _ _ _ _ _ _ _ _ _) as [[[]|e'] d] eqn:E; [discriminate|]. intros H. injection H as _ <-.
  assert (Hd : d = z_markers z); [|subst d; destruct z; reflexivity].
  assert (Hn : (0 <= n)%Z) by (unfold linspace01 in El; destruct (Z.ltb_spec n 0); [discriminate|lia]).
  destruct (linspace_spec n Hn) as (l & El' & Hlen & _). rewrite El in El'. injection El' as <-.
  destruct coefs as [|c r]; [discriminate|]. rewrite loop_unfold in E.
  destruct (name_at nm 0) as [n0|] eqn:En; [|injection E as _ <-; reflexivity].
  destruct (color_at cb cev c) as [col|] eqn:Ec; [|injection E as _ <-; reflexivity].
  exfalso.
  assert (Hcol : forall c', is_ok (color_at cb cev c') = true) by (intros c'; rewrite (color_len cb cev c' c), Ec; reflexivity).
  destruct (loop_never nm sv a cb cev ty (z_n z) r 1 (dict_set n0 (made sv a ty (z_n z) 0 n0 col) (z_markers z))) as (d' & E'); [|exact Hcol|congruence].
  intros k Hk. destruct nm as [s|l]; [reflexivity|]. cbn [name_at].
  destruct (np_idx_ok l (1 + k)) as (x & _ & Ex); [|rewrite Ex; reflexivity].
  cbn in Hlen. destruct (Z.ltb_spec 1 n).
  - cbn in Eb. unfold bad in Eb. apply Bool.negb_false_iff, Z.eqb_eq in Eb. lia.
  - lia.
Qed.

Lemma dict_set_fresh {A} n (v : A) d : ~ In n (map fst d) -> dict_set n v d = d ++ [(n, v)].
Proof.
  induction d as [|[k w] r IH]; intros H; [reflexivity|]. cbn. destruct (String.eqb_spec n k) as [->|]; [exfalso; apply H; left; reflexivity|].
  rewrite IH; [reflexivity|]. intros Hin. apply H. right. exact Hin.
Qed.
Lemma dict_or_fresh {A} (ms : list (string * A)) : forall d, NoDup (map fst ms) -> (forall n, In n (map fst ms) -> ~ In n (map fst d)) -> dict_or d ms = d ++ ms.
Proof.
  unfold dict_or. induction ms as [|[n v] r IH]; intros d Hnd Hdis; [cbn; symmetry; apply app_nil_r|]. cbn [fold_left fst snd].
  inversion Hnd as [|? ? Hn Hr]; subst. rewrite dict_set_fresh by (apply Hdis; left; reflexivity). rewrite IH; [rewrite <- app_assoc; reflexivity|exact Hr|].
  intros m Hm. rewrite map_app, in_app_iff. intros [H|[H|[]]]; [apply (Hdis m); [right; exact Hm|exact H]|]. cbn in H. subst m. contradiction.
Qed.

Lemma nth_error_ext' {A} (l : list A) : forall l', (forall k, nth_error l k = nth_error l' k) -> l = l'.
Proof.
  induction l as [|x l IH]; intros [|y l'] H; [reflexivity| | |]; try (specialize (H 0); discriminate).
  pose proof (H 0) as H0. injection H0 as <-. f_equal. apply IH. intros k. exact (H (S k)).
Qed.
(** An accepted add, by its effect. *)
Lemma accepted_add nm sz a cb ce ty n z z' : add_markers nm sz a cb ce ty n z = (Ok tt, z') ->
  (0 <= n)%Z /\ exists ms coefs, linspace01 n = Ok coefs /\ List.length ms = Z.to_nat n /\
   z' = mkViz (z_nq z) (z_qpos z) (option_map (add_ngeom n) (z_viewer z)) (option_map (add_ngeom n) (z_renderer z)) (z_n z + n) (dict_or (z_markers z) ms) (z_frames z) (z_filename z) /\
   map fst ms = names_used nm n /\
   forall k c, nth_error coefs k = Some c -> exists nk col, nth_error (names_used nm n) k = Some nk /\ color_at cb (match ce with Some c => c | None => cb end) c = Ok col /\
     nth_error ms k = Some (nk, made (size_vector sz) a ty (z_n z) k nk col).
Proof.
  unfold add_markers. set (bad := match nm with NStr _ => true | NList l => _ end).
  destruct ((1 <? n)%Z && bad)%bool eqn:Eb; [discriminate|].
  destruct (linspace01 n) as [coefs|] eqn:El; [|discriminate].
  destruct (marker_loop _ _ _ _ _ _ _ _ _ _) as [[[]|e'] d] eqn:E; [|discriminate]. intros H. injection H as <-.
  assert (Hn : (0 <= n)%Z) by (unfold linspace01 in El; destruct (Z.ltb_spec n 0); [discriminate|lia]). split; [exact Hn|].
  destruct (linspace_spec n Hn) as (l & El' & Hlen & _). rewrite El in El'. injection El' as <-.
  destruct (loop_ok _ _ _ _ _ _ _ _ _ _ _ E) as (ms & -> & Hml & Hms). exists ms, coefs.
  assert (Hlook : forall k, k < Z.to_nat n -> forall x, name_at nm k = Ok x -> nth_error (names_used nm n) k = Some x).
  { intros k Hk x Hx. destruct nm as [s|l]; cbn [name_at names_used] in *.
    - injection Hx as <-. rewrite nth_error_repeat by exact Hk. reflexivity.
    - unfold np_idx in Hx. destruct (Z.ltb_spec (Z.of_nat k) 0); [lia|]. destruct (_ || _)%bool; [discriminate|]. rewrite Nat2Z.id in Hx.
      destruct (nth_error l k) as [y|] eqn:Ey; [|discriminate]. injection Hx as <-.
      rewrite <- Ey. clear -Hk. revert k l Hk. induction (Z.to_nat n) as [|m IH]; intros k l Hk; [lia|]. destruct l as [|y l]; [destruct k; reflexivity|]. destruct k; [reflexivity|]. cbn. apply IH. lia. }
  split; [reflexivity|]. split; [congruence|]. split; [reflexivity|].
  assert (Hk : forall k c, nth_error coefs k = Some c -> exists nk col, nth_error (names_used nm n) k = Some nk /\ color_at cb (match ce with Some c => c | None => cb end) c = Ok col /\
     nth_error ms k = Some (nk, made (size_vector sz) a ty (z_n z) k nk col)).
  { intros k c Hc. assert (k < Z.to_nat n) by (rewrite <- Hlen; apply nth_error_Some; congruence).
    destruct (Hms k c Hc) as (nk & col & H1 & H2 & H3). exists nk, col. cbn [Nat.add] in *. split; [apply Hlook; assumption|]. split; [exact H2|]. destruct sz; exact H3. }
  split; [|exact Hk].
  apply nth_error_ext'. intros k. rewrite nth_error_map.
  destruct (Nat.ltb_spec k (Z.to_nat n)) as [Hlt|Hge].
  - destruct (nth_error coefs k) as [c|] eqn:Ec; [|apply nth_error_None in Ec; lia]. destruct (Hk k c Ec) as (nk & col & H1 & _ & H3). rewrite H1, H3. reflexivity.
  - replace (nth_error ms k) with (@None (string * marker)) by (symmetry; apply nth_error_None; lia). cbn. symmetry. apply nth_error_None.
    destruct nm as [s|l']; cbn [names_used]; [rewrite repeat_length; lia|rewrite firstn_length; lia].
Qed.

(** ** the invariant of histories with fresh names *)
Definition ids (z : viz) : list Z := map (fun e => mk_id (snd e)) (z_markers z).
Record tidy_markers (z : viz) : Prop := {
  tm_ids : ids z = map Z.of_nat (seq 0 (List.length (z_markers z)));
  tm_n : z_n z = Z.of_nat (List.length (z_markers z));
  tm_names : NoDup (map fst (z_markers z));
  tm_own : forall n m, In (n, m) (z_markers z) -> mk_name m = n;
  tm_view : forall s, z_viewer z = Some s -> sc_ngeom s = z_n z }.

Lemma dict_set_same_names {A} n (v w : A) d : assoc n d = Some w -> map fst (dict_set n v d) = map fst d.
Proof.
  intros H. pose proof (dict_set_names n v (fun _ : A => tt) d) as Hd. rewrite H in Hd. specialize (Hd eq_refl). apply (f_equal (map fst)) in Hd. rewrite !map_map in Hd. exact Hd.
Qed.
Lemma dict_set_map {A B} n (v w : A) (f : A -> B) d : assoc n d = Some w -> f v = f w -> map (fun e => f (snd e)) (dict_set n v d) = map (fun e => f (snd e)) d.
Proof.
  intros H E. pose proof (dict_set_names n v f d) as Hd. rewrite H in Hd. cbn in Hd. rewrite E in Hd. specialize (Hd eq_refl).
  apply (f_equal (map snd)) in Hd. rewrite !map_map in Hd. exact Hd.
Qed.
Lemma dict_set_In {A} n (v : A) d m x : In (m, x) (dict_set n v d) -> (m = n /\ x = v) \/ In (m, x) d.
Proof.
  induction d as [|[k w] r IH]; cbn; [intros [H|[]]; injection H as <- <-; left; split; reflexivity|].
  destruct (String.eqb_spec n k) as [->|]; cbn; [intros [H|H]; [injection H as <- <-; left; split; reflexivity|right; right; exact H]|].
  intros [H|H]; [right; left; exact H|]. destruct (IH H) as [H'|H']; [left; exact H'|right; right; exact H'].
Qed.
Lemma assoc_In_list {A} n (v : A) d : assoc n d = Some v -> In (n, v) d.
Proof. induction d as [|[k w] r IH]; cbn; [discriminate|]. destruct (String.eqb_spec n k) as [->|]; [intros H; injection H as ->; left; reflexivity|intros H; right; apply IH, H]. Qed.

Lemma draw_ngeom n ms : forall s, sc_ngeom (snd (draw_markers n ms s)) = sc_ngeom s.
Proof.
  induction ms as [|[k m] r IH]; intros s; [reflexivity|]. cbn [draw_markers]. destruct (np_idx _ _); [|reflexivity]. destruct (init_geom m); [|reflexivity].
  destruct (py_set _ _ _); [|reflexivity]. rewrite IH. reflexivity.
Qed.
Lemma update_keeps ga q z : let z' := snd (viz_update ga q z) in
  z_markers z' = z_markers z /\ z_n z' = z_n z /\ (forall s', z_viewer z' = Some s' -> exists s, z_viewer z = Some s /\ sc_ngeom s' = sc_ngeom s).
Proof.
  cbn zeta. unfold viz_update. destruct (negb _); [cbn; split; [reflexivity|split; [reflexivity|eauto]]|].
  destruct (z_viewer z) as [s|] eqn:Ev.
  - destruct (draw_markers (z_n z) (z_markers z) s) as [r s1] eqn:Ed.
    assert (Hs : sc_ngeom s1 = sc_ngeom s) by (pose proof (draw_ngeom (z_n z) (z_markers z) s) as H; rewrite Ed in H; exact H).
    destruct r as [[]|e]; [|cbn; split; [reflexivity|split; [reflexivity|intros s' H; injection H as <-; eauto]]].
    destruct (z_renderer z) as [t|]; [|cbn; split; [reflexivity|split; [reflexivity|intros s' H; injection H as <-; eauto]]].
    destruct (draw_markers _ _ (update_scene _ t)) as [[[]|] t1]; destruct (z_frames z); cbn; (split; [reflexivity|split; [reflexivity|intros s' H; injection H as <-; eauto]]).
  - destruct (z_renderer z) as [t|]; [|cbn; split; [reflexivity|split; [reflexivity|intros s' H; discriminate]]].
    destruct (draw_markers _ _ (update_scene _ t)) as [[[]|] t1]; destruct (z_frames z); cbn; (split; [reflexivity|split; [reflexivity|intros s' H; discriminate]]).
Qed.

Lemma NoDup_app_intro {A} (l l' : list A) : NoDup l -> NoDup l' -> (forall x, In x l' -> ~ In x l) -> NoDup (l ++ l').
Proof.
  intros H H' Hd. induction l as [|x l IH]; [exact H'|]. inversion H as [|? ? Hx Hl]; subst. cbn. constructor.
  - rewrite in_app_iff. intros [Hin|Hin]; [contradiction|]. apply (Hd x Hin). left. reflexivity.
  - apply IH; [exact Hl|]. intros y Hy Hin. apply (Hd y Hy). right. exact Hin.
Qed.
Lemma seq_ids_app (a b : nat) : map Z.of_nat (seq 0 (a + b)) = map Z.of_nat (seq 0 a) ++ map (fun k => Z.of_nat a + Z.of_nat k)%Z (seq 0 b).
Proof.
  rewrite seq_app, map_app. f_equal. cbn [Nat.add]. revert a. induction b as [|b IH]; intros a; [reflexivity|].
  rewrite !seq_S, !map_app. f_equal; [apply IH|]. cbn. f_equal. lia.
Qed.
Lemma step_tidy ga o z : tidy_markers z -> fresh ga [o] z -> tidy_markers (snd (vstep ga o z)).
Proof.
  intros [Hi Hn Hnd Hown Hv] [Hf _]. destruct o as [nm sz a cb ce ty n|nm p r|q]; cbn [vstep] in *.
  - destruct (add_markers nm sz a cb ce ty n z) as [[[]|e] z'] eqn:E; [|rewrite (failed_add _ _ _ _ _ _ _ _ _ _ E); constructor; assumption].
    cbn [fst snd] in *. destruct (Hf eq_refl) as [Hnd' Hdis].
    destruct (accepted_add _ _ _ _ _ _ _ _ _ E) as (Hn0 & ms & coefs & El & Hlen & -> & Hnames & Hms).
    rewrite <- Hnames in Hnd', Hdis. rewrite (dict_or_fresh ms (z_markers z) Hnd' Hdis).
    assert (Hmid : map (fun e => mk_id (snd e)) ms = map (fun k => (z_n z + Z.of_nat k)%Z) (seq 0 (List.length ms))).
    { apply nth_error_ext'. intros k. rewrite !nth_error_map.
      destruct (Nat.ltb_spec k (List.length ms)) as [Hlt|Hge].
      - destruct (linspace_spec n Hn0) as (l & El' & Hll & _). rewrite El in El'. injection El' as <-.
        destruct (nth_error coefs k) as [c|] eqn:Ec; [|apply nth_error_None in Ec; lia]. destruct (Hms k c Ec) as (nk & col & _ & _ & ->).
        rewrite (nth_error_nth' (seq 0 (List.length ms)) 0) by (rewrite seq_length; exact Hlt). rewrite seq_nth by exact Hlt. reflexivity.
      - replace (nth_error ms k) with (@None (string * marker)) by (symmetry; apply nth_error_None; lia).
        replace (nth_error (seq 0 (List.length ms)) k) with (@None nat) by (symmetry; apply nth_error_None; rewrite seq_length; lia). reflexivity. }
    constructor; cbn [z_markers z_n z_viewer].
    + unfold ids in *. cbn [z_markers]. rewrite map_app, app_length, seq_ids_app, Hi, Hmid, Hn. reflexivity.
    + rewrite app_length, Hn, Hlen. lia.
    + rewrite map_app. apply NoDup_app_intro; assumption.
    + intros m x Hin. apply in_app_iff in Hin as [Hin|Hin]; [exact (Hown m x Hin)|]. apply In_nth_error in Hin as [k Hk].
      destruct (linspace_spec n Hn0) as (l & El' & Hll & _). rewrite El in El'. injection El' as <-.
      assert (k < List.length ms) by (apply nth_error_Some; congruence).
      destruct (nth_error coefs k) as [c|] eqn:Ec; [|apply nth_error_None in Ec; lia]. destruct (Hms k c Ec) as (nk & col & _ & _ & E'). rewrite E' in Hk. injection Hk as <- <-. reflexivity.
    + intros s Hs. destruct (z_viewer z) as [s0|]; [|discriminate]. cbn in Hs. injection Hs as <-. cbn. rewrite (Hv s0 eq_refl). reflexivity.
  - unfold move_marker. destruct (assoc nm (z_markers z)) as [m|] eqn:Em; [|constructor; assumption]. cbn [snd].
    assert (Hl : List.length (dict_set nm (mkMk (mk_name m) (mk_id m) (mk_type m) (mk_size m) p r (mk_rgba m)) (z_markers z)) = List.length (z_markers z)).
    { rewrite <- (map_length fst), (dict_set_same_names _ _ _ _ Em), map_length. reflexivity. }
    constructor; cbn [z_markers z_n z_viewer].
    + unfold ids in *. cbn [z_markers]. rewrite (dict_set_map nm (mkMk (mk_name m) (mk_id m) (mk_type m) (mk_size m) p r (mk_rgba m)) m mk_id _ Em eq_refl), Hl. exact Hi.
    + rewrite Hl. exact Hn.
    + rewrite (dict_set_same_names _ _ _ _ Em). exact Hnd.
    + intros k x Hin. apply dict_set_In in Hin as [[-> ->]|Hin]; [|exact (Hown k x Hin)]. cbn. apply Hown. apply assoc_In_list. exact Em.
    + exact Hv.
  - destruct (update_keeps ga q z) as (H1 & H2 & H3). unfold ids in *. constructor; rewrite ?H1, ?H2; try assumption.
    + unfold ids. rewrite H1. exact Hi.
    + intros s Hs. destruct (H3 s Hs) as (s0 & Hs0 & ->). rewrite H2 || idtac. apply Hv. exact Hs0.
Qed.
Lemma run_tidy ga os : forall z, tidy_markers z -> fresh ga os z -> tidy_markers (vrun ga os z).
Proof.
  induction os as [|o r IH]; intros z Hz Hf; [exact Hz|]. cbn [vrun fold_left]. destruct Hf as [Hf1 Hf2]. apply IH; [|exact Hf2].
  apply step_tidy; [exact Hz|]. split; [exact Hf1|exact I].
Qed.
Lemma new_tidy nq q0 vs rs f : tidy_markers (new_viz nq q0 vs rs f).
Proof. constructor; try reflexivity; [constructor|intros n m []|]. intros s Hs. cbn in Hs. destruct vs; [|discriminate]. injection Hs as <-. reflexivity. Qed.
