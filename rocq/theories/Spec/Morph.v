(* C57: morph state display *)
From Coq Require Import QArith Qround.
From Verif.Lib Require Import Base.
From Verif.Model Require Import Morph.
Open Scope Z_scope.

(* What is needed of the floating point format: rounding is monotone and small integers are exact. *)
Definition rounding (rnd : Q -> Q) : Prop :=
  (forall x y, (x <= y)%Q -> (rnd x <= rnd y)%Q) /\ (forall z, -255 <= z <= 255 -> (rnd (inject_Z z) == inject_Z z)%Q).

Definition between (a x b : Z) : Prop := Z.min a b <= x <= Z.max a b.
Definition rgb_between (a x b : rgb) : Prop :=
  let '(ar, ag, ab) := a in let '(xr, xg, xb) := x in let '(br, bg, bb) := b in between ar xr br /\ between ag xg bg /\ between ab xb bb.
Definition good_rgb (a : rgb) : Prop := let '(r, g, b) := a in 0 <= r <= 255 /\ 0 <= g <= 255 /\ 0 <= b <= 255.

(* The value reported last to callback k, in a history given most recent first *)
Fixpoint last_report (k : nat) (rh : list mop) : option Z :=
  match rh with
  | [] => None
  | MUpdate j (Some v) :: rh' => if (j =? k)%nat then Some v else last_report k rh'
  | _ :: rh' => last_report k rh'
  end.
(* A value reported to callback k for which nothing happens, because it is the same as before *)
Definition news (k : nat) (v : Z) (rh : list mop) : bool := negb (optz_eqb (Some v) (last_report k rh)).
(* The enablement of display k has changed since its last new value: the next one is ignored *)
Fixpoint ignoring (k : nat) (rh : list mop) : bool :=
  match rh with
  | [] => false
  | MEnablement j :: rh' => if (j =? k)%nat then true else ignoring k rh'
  | MUpdate j (Some v) :: rh' => if (j =? k)%nat && news k v rh' then false else ignoring k rh'
  | _ :: rh' => ignoring k rh'
  end.
(* The morph state after a history *)
Fixpoint morph_state (conf : nat -> mconf) (rh : list mop) : Z :=
  match rh with
  | [] => 0
  | MUpdate k (Some v) :: rh' => if news k v rh' && negb (ignoring k rh') then v else morph_state conf rh'
  | MUser k true :: rh' => if mc_suppress (conf k) then morph_state conf rh' else toggled (morph_state conf rh')
  | MRigChanged :: _ => 0
  | MRigToggled :: rh' => toggled (morph_state conf rh')
  | MRigMomentary :: _ => 16383
  | _ :: rh' => morph_state conf rh'
  end.
(* All reports are in the range of the parameter *)
Definition in_range (o : mop) : Prop := match o with MUpdate _ (Some v) => 0 <= v <= 16383 | _ => True end.
(* The colour shown last by callback k *)
Fixpoint last_shown (k : nat) (evs : list mev) : option rgb :=
  match evs with
  | [] => None
  | MShow j c :: evs' => match last_shown k evs' with Some x => Some x | None => if (j =? k)%nat then Some c else None end
  | _ :: evs' => last_shown k evs'
  end.
Definition sets_of (k : nat) (evs : list mev) : list Z := flat_map (fun e => match e with MSet j v => if (j =? k)%nat then [v] else [] | _ => [] end) evs.
