(** File names without a hash or without an extension: behind C71. *)
From Verif Require Import Base Lin Visualize SpecViz VizFacts3.
From Coq Require Import String Ascii.
Open Scope nat_scope.

Lemma clip_last s a : clip_index (String.append s (String a "")) (-1) = String.length s.
Proof. unfold clip_index. rewrite length_append. cbn [String.length]. replace (-1 <? 0)%Z with true by reflexivity. lia. Qed.
Lemma to_last s a : slice_to (String.append s (String a "")) (-1) = s.
Proof. unfold slice_to. rewrite clip_last. apply substring_prefix. Qed.
Lemma from_last s a : slice_from (String.append s (String a "")) (-1) = String a "".
Proof.
  unfold slice_from. rewrite clip_last, length_append. replace (String.length s + String.length (String a "") - String.length s) with (String.length (String a "")) by lia.
  apply substring_suffix.
Qed.
Lemma from_at p e : slice_from (String.append p e) (Z.of_nat (String.length p)) = e.
Proof.
  unfold slice_from. rewrite clip_at, length_append. replace (String.length p + String.length e - String.length p) with (String.length e) by lia. apply substring_suffix.
Qed.
Lemma to_at p e : slice_to (String.append p e) (Z.of_nat (String.length p)) = p.
Proof. unfold slice_to. rewrite clip_at. apply substring_prefix. Qed.
Lemma rfind_absent c s : ~ has_char c s -> rfind c s = (-1)%Z.
Proof. intros H. unfold rfind. now apply rfind_none. Qed.
Lemma rfind_at c a b : ~ has_char c b -> rfind c (String.append a (String c b)) = Z.of_nat (String.length a).
Proof. intros H. unfold rfind. rewrite rfind_app by exact H. lia. Qed.

Lemma strip_no_hash name ext a : ~ has_char "-" (String.append name (String "." (String.append ext (String a "")))) -> ~ has_char "." (String.append ext (String a "")) ->
  strip_hash (String.append name (String "." (String.append ext (String a ""))))
  = String.append name (String "." (String.append ext (String "." (String.append ext (String a ""))))).
Proof.
  intros H1 H2. unfold strip_hash. rewrite (rfind_absent _ _ H1), (rfind_at _ _ _ H2).
  rewrite from_at.
  replace (String.append name (String "." (String.append ext (String a "")))) with (String.append (String.append name (String "." ext)) (String a "")) by (rewrite append_assoc; reflexivity).
  rewrite to_last. rewrite append_assoc. reflexivity.
Qed.
Lemma strip_no_extension name hash a : ~ has_char "." (String.append name (String "-" (String.append hash (String a "")))) -> ~ has_char "-" (String.append hash (String a "")) ->
  strip_hash (String.append name (String "-" (String.append hash (String a "")))) = String.append name (String a "").
Proof.
  intros H1 H2. unfold strip_hash. rewrite (rfind_absent _ _ H1), (rfind_at _ _ _ H2). rewrite to_at.
  replace (String.append name (String "-" (String.append hash (String a "")))) with (String.append (String.append name (String "-" hash)) (String a "")) by (rewrite append_assoc; reflexivity).
  now rewrite from_last.
Qed.
Lemma strip_plain s a : ~ has_char "-" (String.append s (String a "")) -> ~ has_char "." (String.append s (String a "")) ->
  strip_hash (String.append s (String a "")) = String.append s (String a "").
Proof. intros H1 H2. unfold strip_hash. rewrite (rfind_absent _ _ H1), (rfind_absent _ _ H2), to_last, from_last. reflexivity. Qed.
