(** Concrete barriers for PropsWrap. *)
From Verif Require Import Base Lin LinFacts Mjx Typing Component SpecComponent SpecHistory SpecCollision SpecWrap Witness BindThms2 BindCases WrapFacts.
Open Scope Z_scope.

Lemma unknown_case : exists c, new_self_collision "self" (tscalar 1) None 0%R 0%R [CBInt 1; CBStr "elbwo"; CBInt (-3)]%string [(CBInt 1, CBStr "tip")]%string (-1) = Ok c /\
  wf_bodies arm4 /\ wf_names arm4 /\ Forall2 (number arm4) [CBInt 1; CBStr "elbwo"; CBInt (-3)]%string [1; -1; -3] /\
  Forall (fun z => exists b, picks arm4 z b) [1; -1; -3] /\ Forall2 (number2 arm4) [(CBInt 1, CBStr "tip")]%string [(1, 4)] /\
  checks (snd (update_model arm4 c)) [(0, 3); (1, 3)].
Proof.
  eexists. split; [reflexivity|]. split; [apply chain_bodies|]. split; [apply chain_names|].
  split. { apply Forall2_cons; [constructor|]. apply Forall2_cons; [apply unknown_number; intros i [H|[H|[]]]; discriminate|]. apply Forall2_cons; constructor. }
  split. { repeat constructor; [exists 1|exists 4|exists 2]; unfold picks, is_body; cbn; lia. }
  split. { repeat apply Forall2_cons; [split; [constructor|constructor; right; now left]|constructor]. }
  do 2 eexists. split; [vm_compute; reflexivity|reflexivity].
Qed.
Lemma out_of_range_case : exists c, new_self_collision "self" (tscalar 1) None 0%R 0%R [CBInt 1; CBInt 5] [] (-1) = Ok c /\
  Forall2 (number arm4) [CBInt 1; CBInt 5] [1; 5] /\ (forall b, ~ picks arm4 5 b) /\ fst (update_model arm4 c) = Err IndexError.
Proof.
  eexists. split; [reflexivity|]. split; [repeat constructor|]. split; [|reflexivity].
  intros b [[H1 H2] H]. cbn in *. lia.
Qed.
Lemma not_a_reference_case : exists c, new_self_collision "self" (tscalar 1) None 0%R 0%R [CBInt 1; CBOther] [] (-1) = Ok c /\
  fst (update_model arm4 c) = Err ValueError.
Proof. eexists. split; reflexivity. Qed.
Lemma rebound_case : exists c, new_self_collision "self" (tscalar 1) None 0%R 0%R [] [] (-1) = Ok c /\
  wf_bodies arm2 /\ wf_names arm2 /\ wf_bodies arm4 /\ wf_names arm4 /\ (0 < m_nbody arm2 <= m_nbody arm4)%nat /\
  checks (snd (update_model arm4 (snd (update_model arm4 c)))) [(0, 2); (0, 3); (1, 3)].
Proof.
  eexists. split; [reflexivity|]. split; [apply chain_bodies|]. split; [apply chain_names|]. split; [apply chain_bodies|]. split; [apply chain_names|].
  split; [cbn; lia|]. do 2 eexists. split; [vm_compute; reflexivity|reflexivity].
Qed.
Lemma listed_case : exists c, new_self_collision "self" (tscalar 1) None 0%R 0%R [CBInt 1; CBStr "tip"]%string [] 3 = Ok c /\
  Forall2 (refers arm2) [CBInt 1; CBStr "tip"]%string [1; 2] /\ Forall2 (refers arm4) [CBInt 1; CBStr "tip"]%string [1; 4] /\
  checks (snd (update_model arm4 (snd (update_model arm2 c)))) [(0, 3)] /\ a_dim (c_at (snd (update_model arm4 (snd (update_model arm2 c))))) = 3.
Proof.
  eexists. split; [reflexivity|].
  split. { apply Forall2_cons; [constructor; unfold is_body; cbn; lia|]. apply Forall2_cons; [|constructor]. constructor; [right; now left|unfold is_body; cbn; lia]. }
  split. { apply Forall2_cons; [constructor; unfold is_body; cbn; lia|]. apply Forall2_cons; [|constructor]. constructor; [right; now left|unfold is_body; cbn; lia]. }
  split; [|reflexivity]. do 2 eexists. split; [vm_compute; reflexivity|reflexivity].
Qed.
