(* The action which boosts the volume of the rig, together with a Kemper: /repo/content/lib/pyswitch/clients/kemper/actions/rig_volume_boost.py 9-33, composed of the models of
   PushButtonAction (PushButton.v) and BinaryParameterCallback (BinaryCb.v). The Kemper has one volume of the current rig: it takes over volumes which are sent to it and answers requests
   in the order they are sent; answers arrive later in the same order (nothing is lost). *)
From Verif.Lib Require Import Base.
From Verif.Model Require Import Period PushButton BinaryCb.
Open Scope Z_scope.
Local Open Scope list_scope.

(* rig_volume_boost.py 21-27, callbacks/__init__.py 79-160: enabled from the boost volume on (GREATER_EQUAL, reference value: value_enable). [boost]: NRPN_VALUE(boost_volume);
   kemper/__init__.py 61-62: NRPN_VALUE(0.5) is 8191. Simplified: floating point numbers are not modelled. *)
Definition boost_cfg (boost : Z) (remember_off : bool) : bcfg :=
  mkBcfg GREATER_EQUAL boost (SOne boost) (OOne (if remember_off then None else Some 8191)) false true true false.

(* [t_known]: the value of the mapping (last answer); [t_vol]: the volume of the current rig on the Kemper; [t_wire]: answers on their way; [t_cmds]: the commands of the user so far *)
Record sys := mkSys { t_btn : button; t_cb : bstate; t_known : option Z; t_vol : Z; t_wire : list Z; t_cmds : list bool }.
Definition start (m : mode) (hold vol : Z) (c : bcfg) : sys := mkSys (new_button m hold) (binit c) None vol [] [].

(* What the effects of the callback do: volumes are set on the Kemper, requests are answered *)
Definition effect (s : sys) (e : bevent) : sys :=
  match e with
  | ESet _ (SOne z) => mkSys (t_btn s) (t_cb s) (t_known s) z (t_wire s) (t_cmds s)
  | ESet _ (SMany _) => s
  | EAsk => mkSys (t_btn s) (t_cb s) (t_known s) (t_vol s) (t_wire s ++ [t_vol s]) (t_cmds s)
  | EShow _ _ _ => s
  end.
Definition cb (c : bcfg) (s : sys) (o : bop) : sys :=
  let '(b, es) := bstep c (t_cb s) o in fold_left effect es (mkSys (t_btn s) b (t_known s) (t_vol s) (t_wire s) (t_cmds s)).
(* The color is fixed *)
Definition display (c : bcfg) (s : sys) : sys := cb c s (Update (t_known s) 0).
(* What the action does (actions/__init__.py 239-249): the callback is told that the user has changed the state, and the displays are updated *)
Definition action (c : bcfg) (s : sys) (e : button_ev) : sys :=
  match e with
  | Command on => let s := cb c s (User on) in mkSys (t_btn s) (t_cb s) (t_known s) (t_vol s) (t_wire s) (t_cmds s ++ [on])
  | ShowState => display c s
  end.

Inductive op :=
(* The switch is pushed and released *)
| Push (now : Z) | Release (now : Z)
(* The volume is requested (Callback.update), an answer arrives *)
| Ask | Receive
(* The action is enabled (actions/__init__.py 116-124) *)
| Enable
(* On the Kemper another rig is chosen, or the volume is changed there *)
| Rig (v : Z).

(* The state of the action is held by the button: actions/__init__.py 232-255. After an event of the button its state is the one of the callback *)
Definition press (c : bcfg) (s : sys) (o : button_op) : sys :=
  let '(b, es) := button_step (put_state (t_btn s) (b_on (t_cb s))) o in
  let s' := mkSys b (mkB (b_state b) (b_cur (t_cb s)) (b_disp (t_cb s)) (b_col (t_cb s)) (b_off (t_cb s))) (t_known s) (t_vol s) (t_wire s) (t_cmds s) in
  fold_left (action c) es s'.
Definition step (c : bcfg) (s : sys) (o : op) : sys :=
  match o with
  | Push t => press c s (BPush t)
  | Release t => press c s (BRelease t)
  | Ask => effect s EAsk
  | Receive => match t_wire s with [] => s | v :: w => display c (mkSys (t_btn s) (t_cb s) (Some v) (t_vol s) w (t_cmds s)) end
  | Enable => display c (cb c s Renew)
  | Rig v => mkSys (t_btn s) (t_cb s) (t_known s) v (t_wire s) (t_cmds s)
  end.
Definition run (c : bcfg) (s : sys) (h : list op) : sys := fold_left (step c) h s.
