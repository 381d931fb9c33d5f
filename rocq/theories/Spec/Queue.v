(* What users expect from navigation in the web application. *)
From Verif.Lib Require Import Base.
From Verif.Model Require Import Queue.
Local Open Scope list_scope.

Section Spec.
  Context {A : Type}.

  (* The requests, in their order, numbered from n *)
  Fixpoint requests (n : nat) (l : list (event A)) : list (nat * A) := match l with [] => [] | Call c :: l => (n, c) :: requests (S n) l | _ :: l => requests n l end.
  Definition started (l : list (obs A)) : list (nat * A) := flat_map (fun o => match o with Start i c => [(i, c)] | _ => [] end) l.
  Definition ended (l : list (obs A)) : list nat := flat_map (fun o => match o with End i => [i] | _ => [] end) l.
  Definition shown (l : list (obs A)) : list nat := flat_map (fun o => match o with Shown i => [i] | _ => [] end) l.

  (* One route after the other: nothing begins before the one before has ended, and errors are shown while the route they belong to is executed. [cur]: the route which is executed *)
  Fixpoint sequential (cur : option nat) (l : list (obs A)) : Prop :=
    match l with
    | [] => True
    | Start i _ :: l => cur = None /\ sequential (Some i) l
    | Shown i :: l => cur = Some i /\ sequential cur l
    | End i :: l => cur = Some i /\ sequential None l
    end.
  (* The route of call i has begun and has not ended *)
  Definition executing (i : nat) (l : list (obs A)) : Prop := (exists c, In (i, c) (started l)) /\ ~ In i (ended l).
  (* Showing an error never fails *)
  Definition messages_work (l : list (event A)) : Prop := forall i a b m, In (Settle i a b m) l -> m = true.
  (* No new requests *)
  Definition no_requests (l : list (event A)) : Prop := forall c, ~ In (Call c) l.
End Spec.
