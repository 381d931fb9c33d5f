(* C47: value previews. *)
From Verif.Lib Require Import Base.
From Verif.Model Require Import Period Preview.

(* A label before its first preview *)
Definition fresh (l : plabel) : Prop := l_over l = None /\ l_color l = match l_init l with Some c => c | None => l_auto l end.
(* A history of everything that can happen to the preview of a label l0 *)
Definition history (l0 : plabel) (ops : list pop) (s : preview) (ev : list pev) : Prop := fresh l0 /\ pvrun (new_preview l0) ops = (s, ev).

(* text t is displayed as preview / no preview is displayed *)
Definition previews (s : preview) (t : Z) : Prop := l_over (v_lbl s) = Some t /\ l_text (v_lbl s) = t.
Definition no_preview (s : preview) : Prop := l_over (v_lbl s) = None /\ (forall c, l_cb (v_lbl s) = Some c -> l_text (v_lbl s) = c).
(* The colour the label has without preview *)
Definition normal_color (l : plabel) : Z := match l_init l with Some c => c | None => l_auto l end.

(* Operations which do not enter or leave a preview on purpose *)
Definition passive (o : pop) : bool := match o with PUpdate _ | PRefresh _ | PBack _ => true | _ => false end.
Definition update_after (deadline : Z) (o : pop) : bool := match o with PUpdate t => deadline <? t | _ => false end.
(* Users which have registered in a history, in order of their first preview *)
Fixpoint users (ops : list pop) (seen : list nat) : list nat :=
  match ops with
  | [] => seen
  | PPreview _ (Some c) _ _ _ _ _ :: r => users r (if existsb (Nat.eqb c) seen then seen else seen ++ [c])
  | _ :: r => users r seen
  end.
Definition others (client : option nat) (l : list nat) : list nat :=
  filter (fun c => negb (match client with Some x => (c =? x)%nat | None => false end)) l.
(* How the actions of the application use it: a blinking preview is pinned and belongs to a user, and each user has one blink interval *)
Definition blinks_as (bl : nat -> Z) (o : pop) : bool :=
  match o with
  | PPreview _ (Some c) st _ b _ _ => (b =? bl c) && (st || (b =? 0))
  | PPreview _ None _ _ b _ _ => b =? 0
  | _ => true
  end.
