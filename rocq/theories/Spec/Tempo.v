(* C72: the tempo display. *)
From Verif.Lib Require Import Base.
From Verif.Model Require Import Tempo.

Definition same_param (p q : tparam) : bool :=
  match p, q with PPulse, PPulse | PTuner, PTuner | PBpm, PBpm | PRig, PRig => true | _, _ => false end.
(* the value last reported *)
Definition value (p : tparam) (ops : list top) : option Z :=
  fold_left (fun v o => match o with TVal q w => if same_param p q then w else v | TDraw => v end) ops None.

(* what the user sees at the end *)
Definition led_now (ev : list tev) : option bool := fold_left (fun l e => match e with TLed b => Some b | _ => l end) ev None.
Definition text_now (ev : list tev) : option Z := fold_left (fun l e => match e with TText b => Some b | _ => l end) ev None.
Definition previews (ev : list tev) : list Z := flat_map (fun e => match e with TPreview b => [b] | _ => [] end) ev.

(* the tempo and the rig whenever drawn outside tuner mode with the tempo known *)
Fixpoint sights (before ops : list top) : list (Z * option Z) :=
  match ops with
  | [] => []
  | TDraw :: l => (match value PTuner before, value PBpm before with
                   | Some 1, _ | _, None => []
                   | _, Some b => [(b, value PRig before)]
                   end) ++ sights (before ++ [TDraw]) l
  | o :: l => sights (before ++ [o]) l
  end.
(* those where the tempo is new *)
Fixpoint new_tempos (last : option Z) (l : list (Z * option Z)) : list (Z * option Z) :=
  match l with
  | [] => []
  | (b, r) :: l' => if match last with Some x => x =? b | None => false end then new_tempos last l' else (b, r) :: new_tempos (Some b) l'
  end.
Definition same_rig (a b : option Z) : bool :=
  match a, b with Some x, Some y => x =? y | None, None => true | _, _ => false end.
(* each one that followed another one in the same rig *)
Fixpoint followers (l : list (Z * option Z)) : list Z :=
  match l with
  | (_, r) :: (((b, r') :: _) as l') => (if same_rig r r' then [b] else []) ++ followers l'
  | _ => []
  end.
