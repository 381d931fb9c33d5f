(* Common imports and small list facts used by the models and proofs. No modelling content. *)
From Coq Require Export ZArith List Bool Lia.
From Coq Require Export ZifyBool ZifyNat ZifyN.
Export ListNotations.
Global Open Scope Z_scope.

Ltac Zify.zify_post_hook ::= Z.div_mod_to_equations.

Global Arguments Z.mul : simpl never.
Global Arguments Z.add : simpl never.
Global Arguments Z.sub : simpl never.
Global Arguments Z.opp : simpl never.
Global Arguments Z.div : simpl never.
Global Arguments Z.quot : simpl never.
Global Arguments Z.modulo : simpl never.
Global Arguments Z.leb : simpl never.
Global Arguments Z.ltb : simpl never.
Global Arguments Z.eqb : simpl never.
Global Arguments Z.min : simpl never.
Global Arguments Z.max : simpl never.

(* One case split per boolean comparison, remembering the equation. *)
Ltac case_if :=
  match goal with
  | |- context [if ?b then _ else _] => destruct b eqn:?
  end.
Ltac case_if_in H :=
  match type of H with
  | context [if ?b then _ else _] => destruct b eqn:?
  end.
Ltac inv H := inversion H; subst; clear H.

Lemma fold_left_snoc {A B} (f : A -> B -> A) l x a :
  fold_left f (l ++ [x]) a = f (fold_left f l a) x.
Proof. rewrite fold_left_app. reflexivity. Qed.

Lemma rev_ind_snoc {A} (P : list A -> Prop) :
  P [] -> (forall l x, P l -> P (l ++ [x])) -> forall l, P l.
Proof. intros H0 H1 l. apply (rev_ind P); auto. Qed.

(* Run a step function over a list of operations, concatenating the emitted events. *)
Definition run {S O E} (step : S -> O -> S * list E) (s : S) (ops : list O) : S * list E :=
  fold_left (fun acc o => let '(s1, e1) := step (fst acc) o in (s1, snd acc ++ e1)) ops (s, []).

Lemma run_nil {S O E} (step : S -> O -> S * list E) s : run step s [] = (s, []).
Proof. reflexivity. Qed.

Lemma run_acc {S O E} (step : S -> O -> S * list E) ops s es :
  fold_left (fun acc o => let '(s1, e1) := step (fst acc) o in (s1, snd acc ++ e1)) ops (s, es)
  = (fst (run step s ops), es ++ snd (run step s ops)).
Proof.
  revert s es. induction ops as [|o ops IH]; intros s es; cbn.
  - rewrite app_nil_r. reflexivity.
  - unfold run. cbn. destruct (step s o) as [s1 e1] eqn:E1. cbn.
    rewrite IH. rewrite (IH s1 e1). cbn. rewrite app_assoc. reflexivity.
Qed.

Lemma run_cons {S O E} (step : S -> O -> S * list E) s o ops :
  run step s (o :: ops)
  = (fst (run step (fst (step s o)) ops), snd (step s o) ++ snd (run step (fst (step s o)) ops)).
Proof.
  unfold run at 1. cbn. destruct (step s o) as [s1 e1]. cbn. apply run_acc.
Qed.

Lemma run_app {S O E} (step : S -> O -> S * list E) s ops1 ops2 :
  run step s (ops1 ++ ops2)
  = (fst (run step (fst (run step s ops1)) ops2),
     snd (run step s ops1) ++ snd (run step (fst (run step s ops1)) ops2)).
Proof.
  unfold run at 1. rewrite fold_left_app.
  fold (run step s ops1). destruct (run step s ops1) as [s1 e1] eqn:E1. cbn. apply run_acc.
Qed.

Lemma run_snoc {S O E} (step : S -> O -> S * list E) s ops o :
  run step s (ops ++ [o])
  = (fst (step (fst (run step s ops)) o), snd (run step s ops) ++ snd (step (fst (run step s ops)) o)).
Proof.
  rewrite run_app, run_cons. cbn. rewrite app_nil_r. reflexivity.
Qed.
