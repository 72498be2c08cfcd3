(** Vocabulary for the visualizer. *)
From Verif Require Import Base Lin Rot Problem JaxTree Visualize.
Open Scope nat_scope.

(** ** Histories of calls.  A call that raises leaves whatever state it reached. *)
Inductive vop :=
| VAdd (name : names) (size : sizes) (alpha : R) (cb : list R) (ce : option (list R)) (ty n : Z)
| VMove (name : string) (pos : list R) (rot : tensor)
| VUpdate (q : tensor).
Definition vstep (geoms_at : list R -> list slot) (o : vop) (z : viz) : res unit * viz :=
  match o with
  | VAdd nm sz a cb ce ty n => add_markers nm sz a cb ce ty n z
  | VMove nm p r => move_marker nm p r z
  | VUpdate q => viz_update geoms_at q z
  end.
Definition vrun (geoms_at : list R -> list slot) (os : list vop) (z : viz) : viz := fold_left (fun z o => snd (vstep geoms_at o z)) os z.

(** The names a call gives to its [n] markers. *)
Definition names_used (nm : names) (n : Z) : list string :=
  match nm with NStr s => repeat s (Z.to_nat n) | NList l => firstn (Z.to_nat n) l end.
(** Every accepted add_markers call uses new, distinct names. *)
Fixpoint fresh (geoms_at : list R -> list slot) (os : list vop) (z : viz) : Prop :=
  match os with
  | [] => True
  | o :: r =>
      match o with
      | VAdd nm _ _ _ _ _ n => fst (vstep geoms_at o z) = Ok tt -> NoDup (names_used nm n) /\ (forall s, In s (names_used nm n) -> ~ In s (map fst (z_markers z)))
      | _ => True
      end /\ fresh geoms_at r (snd (vstep geoms_at o z))
  end.

(** A visualizer reached from a new one by a history with fresh marker names. *)
Definition reached (ga : list R -> list slot) (os : list vop) (z : viz) : Prop :=
  exists nq q0 vs rs f, fresh ga os (new_viz nq q0 vs rs f) /\ z = vrun ga os (new_viz nq q0 vs rs f).
(** How many update calls of the history returned. *)
Fixpoint updates_done (geoms_at : list R -> list slot) (os : list vop) (z : viz) : nat :=
  match os with
  | [] => 0
  | o :: r => (match o, fst (vstep geoms_at o z) with VUpdate _, Ok _ => 1 | _, _ => 0 end) + updates_done geoms_at r (snd (vstep geoms_at o z))
  end.

Definition size_vector (s : sizes) : list R := match s with SzFloat x => [x; x; x] | SzArr l => l end.
(** The weight of marker [k] of [n]. *)
Definition coef (n : Z) (k : nat) : R := if (n =? 1)%Z then 0%R else (INR k / IZR (n - 1))%R.
(** Convex combination of two colours. *)
Definition blend (c : R) (a b : list R) : list R := map (fun p => (c * fst p + (1 - c) * snd p)%R) (combine a b).
(** The marker is in the scene's slot number [k]. *)
Definition shows (m : marker) (s : slot) : Prop :=
  exists M, rot_matrix m = Ok M /\ s = mkSlot (mk_type m) (mk_size m) (mk_pos m) M (mk_rgba m).
Definition drawable (m : marker) : Prop := exists g, init_geom m = Ok g.

(** ** XML *)
Definition is_body (x : xml) : bool := String.eqb (x_tag x) "body".
Definition uids (l : list xml) : list nat := map x_uid l.
Definition no_tag (t : string) (x : xml) : Prop := forall y, In y (x :: descendants x) -> x_tag y <> t.
Fixpoint has_char (c : Ascii.ascii) (s : string) : Prop := match s with EmptyString => False | String a r => a = c \/ has_char c r end.

(** The joints below an element, in document order. *)
Definition is_joint (x : xml) : bool := (String.eqb (x_tag x) "joint" || String.eqb (x_tag x) "freejoint")%bool.
Definition joints_in (x : xml) : list nat := uids (filter is_joint (x :: descendants x)).

(** ** Colours *)
Definition visible (gg : Z) (ks : list gclass) (g : geom) : Prop := forall x, geom_group_of ks g = Some x -> x = gg.
(** The colour a geom is drawn with, when it or its class has one. *)
Definition shown_color (ks : list gclass) (g : geom) : option color :=
  match g_rgba g with
  | Some c => Some c
  | None => match g_class g with Some k => match nth_error ks k with Some c => k_rgba c | None => None end | None => None end
  end.
(** The visible geoms that take their colour from class [k]. *)
Definition borrowers (gg : Z) (ks : list gclass) (k : nat) (gs : list geom) : list geom :=
  filter (fun g => match g_rgba g, g_class g with None, Some k' => Nat.eqb k k' | _, _ => false end
                   && match geom_group_of ks g with Some x => (x =? gg)%Z | None => true end)%bool gs.
