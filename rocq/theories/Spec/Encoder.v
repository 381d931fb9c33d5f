(* C33 - C35: independent notions for encoders. *)
From Verif.Lib Require Import Base.
From Verif.Model Require Import Midi Encoder.

Definition reached (c : econf) (ops : list eop) (x : enc) : Prop := exists ev, erun c new_enc ops = Ok (x, ev).

(* The values sent to the device *)
Definition sets (ev : list eevent) : list Z := flat_map (fun e => match e with ESet v => [v] | _ => [] end) ev.

(* The banks announced to the application as preselected *)
Definition announced (ev : list eevent) : list Z := flat_map (fun e => match e with EShared v => [v] | _ => [] end) ev.

(* The current value of the parameter (0 when nothing is known yet) as the encoder counts it *)
Definition current (c : econf) (x : enc) : option Z := match get_value c x with Ok (Some v) => Some v | Ok None => Some 0 | Raise => None end.

(* The position of the last poll *)
Definition last_turn (ops : list eop) : option Z := fold_left (fun a o => match o with Turn p => Some p | _ => a end) ops None.

(* The nearest value within the limits *)
Definition nearest (lo hi v : Z) : Z := Z.max lo (Z.min hi v).

Definition is_report (o : eop) : bool := match o with Value _ => true | _ => false end.
Definition is_turn (o : eop) : bool := match o with Turn _ => true | _ => false end.

(* A preselected value [v] after turning from position [p] to [q] *)
Definition moved (c : econf) (p q v : Z) : Z :=
  if scaled c q =? scaled c p then v else nearest (e_min c) (e_max c) (v + (scaled c q - scaled c p)).
(* ... and after turning to several positions; did it ever change? *)
Fixpoint preselected (c : econf) (p v : Z) (ps : list Z) : Z :=
  match ps with [] => v | q :: ps' => preselected c q (moved c p q v) ps' end.
Fixpoint ever_moved (c : econf) (p v : Z) (ps : list Z) : bool :=
  match ps with [] => false | q :: ps' => negb (moved c p q v =? v) || ever_moved c q (moved c p q v) ps' end.

(* The device reported nothing since the encoder last sent a value or was cancelled (or the encoder never did so) *)
Definition settled (c : econf) (ops : list eop) : Prop :=
  (exists ops1 o ops2 x0 x1 ev, ops = ops1 ++ o :: ops2 /\ reached c ops1 x0 /\ estep c x0 o = Ok (x1, ev) /\
     (o = Cancel \/ sets ev <> []) /\ forall q, In q ops2 -> is_report q = false) \/
  ((forall x ev, erun c new_enc ops = Ok (x, ev) -> sets ev = []) /\ forall o, In o ops -> o <> Cancel).
