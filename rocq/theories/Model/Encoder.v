(* controller/actions/EncoderAction.py, clients/kemper/actions/bank_select_encoder.py, clients/local/actions/encoder_button.py *)
From Verif.Lib Require Import Base.
From Verif.Model Require Import Midi.

(* EncoderAction.py:9-79. [e_num]/[e_den] is step_width (floats as exact fractions); limits are integers as in all uses of the
   class; [e_preview]: a preview display is set; [e_watch]: a preview_reset_mapping is set. [e_bank]: the subclass
   _BankSelectEncoderAction (bank_select_encoder.py:25-68). *)
Record econf := mkEconf { e_min : Z; e_max : Z; e_num : Z; e_den : Z; e_pre : bool; e_preview : bool; e_watch : bool; e_bank : bool }.

(* x_pos: __last_pos, x_last: _last_value (None possible after cancel), x_active: __preselect_active, x_seen: __preview_reset_last_value,
   x_val: value of the mapping, x_watch: value of the reset mapping. Simplification: values are numbers. *)
Record enc := mkEnc { x_pos : Z; x_last : option Z; x_active : bool; x_seen : option Z; x_val : option Z; x_watch : option Z }.

(* EncoderAction.py:50-51, 65, 77; nothing is known of the device yet *)
Definition new_enc : enc := mkEnc (-1) (Some (-1)) false None None None.

(* client.set(mapping, v); preview shown with value v; preview.reset(immediately); shared["preselectedBank"] = v *)
Inductive eevent := ESet (v : Z) | EShow (v : Z) | EUnshow (now : bool) | EShared (v : Z).

(* bank_select_encoder.py:4, kemper/__init__.py NUM_RIGS_PER_BANK *)
Definition rigs_per_bank : Z := 5.

(* EncoderAction.py:104-105; bank_select_encoder.py:64-65: None / 5 is a TypeError *)
Definition get_value (c : econf) (x : enc) : res (option Z) :=
  if e_bank c then match x_val x with None => Raise | Some v => Ok (Some (Z.quot v rigs_per_bank)) end
  else Ok (x_val x).

(* EncoderAction.py:108-109; bank_select_encoder.py:67-68 *)
Definition put_value (c : econf) (x : enc) (v : Z) : enc :=
  mkEnc (x_pos x) (x_last x) (x_active x) (x_seen x) (Some (if e_bank c then v * rigs_per_bank else v)) (x_watch x).

(* EncoderAction.py:199-205 cancel *)
Definition cancel (c : econf) (immediately : bool) (x : enc) : res (enc * list eevent) :=
  match get_value c x with
  | Raise => Raise
  | Ok v => Ok (mkEnc (x_pos x) v false (x_seen x) (x_val x) (x_watch x), if e_preview c then [EUnshow immediately] else [])
  end.

Definition is_minus_one (o : option Z) : bool := match o with Some v => v =? -1 | None => false end.

(* EncoderAction.py:185-196 accept. [_last_value] None: then set(mapping, None) is called; unreachable when the value is accepted
   (see Proofs), here an explicit Raise. *)
Definition base_accept (c : econf) (x : enc) : res (enc * list eevent) :=
  if is_minus_one (x_last x) then Ok (x, [])
  else if e_pre c && negb (x_active x) then Ok (x, [])
  else match x_last x with
       | None => Raise
       | Some v => match cancel c false (put_value c x v) with
                   | Raise => Raise
                   | Ok (x', e) => Ok (x', ESet v :: e)
                   end
       end.

(* bank_select_encoder.py:52-62; the blink state of the shared data is left out. The preselected bank may be None in the code. *)
Definition accept (c : econf) (x : enc) : res (enc * list eevent) :=
  match base_accept c x with
  | Raise => Raise
  | Ok (x', e) =>
      if negb (e_bank c) then Ok (x', e)
      else match x_last x' with
           | Some v => if v =? -1 then Ok (x', e) else Ok (x', e ++ [EShared v])
           | None => Ok (x', e)
           end
  end.

(* EncoderAction.py:114 int(position * step_width) *)
Definition scaled (c : econf) (p : Z) : Z := Z.quot (p * e_num c) (e_den c).

Definition opt_eqb (a b : option Z) : bool := match a, b with Some i, Some j => i =? j | None, None => true | _, _ => false end.
Definition known (a : option Z) : bool := match a with Some _ => true | None => false end.

(* EncoderAction.py:121-126 *)
Definition check_watch (c : econf) (x : enc) : res (enc * list eevent) :=
  if e_preview c && e_pre c && e_watch c then
    if opt_eqb (x_watch x) (x_seen x) then Ok (x, [])
    else
      match (if known (x_watch x) && known (x_seen x) then cancel c true x else Ok (x, [])) with
      | Raise => Raise
      | Ok (x', e) => Ok (mkEnc (x_pos x') (x_last x') (x_active x') (x_watch x') (x_val x') (x_watch x'), e)
      end
  else Ok (x, []).

(* EncoderAction.py:148-151 *)
Definition clamp (lo hi v : Z) : Z := let v1 := if v <? lo then lo else v in if hi <? v1 then hi else v1.

(* EncoderAction.py:112-182 process *)
Definition process (c : econf) (x : enc) (position : Z) : res (enc * list eevent) :=
  let pos := scaled c position in
  let x0 := if x_pos x =? -1 then mkEnc pos (x_last x) (x_active x) (x_seen x) (x_val x) (x_watch x) else x in   (* 117-118 *)
  match check_watch c x0 with
  | Raise => Raise
  | Ok (x1, e1) =>
      if x_pos x1 =? pos then Ok (x1, e1)                                                                        (* 129-130 *)
      else
        match get_value c x1 with
        | Raise => Raise
        | Ok w =>
            let x2 := match w with None => put_value c x1 0 | Some _ => x1 end in                                (* 133-134 *)
            let add := pos - x_pos x2 in                                                                         (* 137 *)
            let x3 := mkEnc pos (x_last x2) (x_active x2) (x_seen x2) (x_val x2) (x_watch x2) in                 (* 140 *)
            match (if negb (e_pre c) then get_value c x3 else Ok (x_last x3)) with
            | Raise => Raise
            | Ok None => Raise                                                                                   (* None + int *)
            | Ok (Some base) =>
                let v := clamp (e_min c) (e_max c) (base + add) in                                               (* 143-151 *)
                if opt_eqb (x_last x3) (Some v) then Ok (x3, e1)
                else
                  let x4 := mkEnc (x_pos x3) (Some v) (x_active x3) (x_seen x3) (x_val x3) (x_watch x3) in
                  match (if negb (e_pre c) then accept c x4
                         else Ok (mkEnc (x_pos x4) (x_last x4) true (x_seen x4) (x_val x4) (x_watch x4), [])) with
                  | Raise => Raise
                  | Ok (x5, e5) => Ok (x5, e1 ++ e5 ++ if e_preview c then [EShow v] else [])                    (* 162-182 *)
                  end
            end
        end
  end.

(* A history: encoder polled at a position; accept / cancel button pushed (encoder_button.py:32-37) or another user of the preview
   display entered (preview.py:48-53, also cancel); the device (or anyone) sets the value of the mapping / the reset mapping. *)
Inductive eop := Turn (p : Z) | Accept | Cancel | Value (v : option Z) | Watch (v : option Z).
Definition estep (c : econf) (x : enc) (o : eop) : res (enc * list eevent) :=
  match o with
  | Turn p => process c x p
  | Accept => accept c x
  | Cancel => cancel c true x
  | Value v => Ok (mkEnc (x_pos x) (x_last x) (x_active x) (x_seen x) v (x_watch x), [])
  | Watch v => Ok (mkEnc (x_pos x) (x_last x) (x_active x) (x_seen x) (x_val x) v, [])
  end.
Fixpoint erun (c : econf) (x : enc) (ops : list eop) : res (enc * list eevent) :=
  match ops with
  | [] => Ok (x, [])
  | o :: ops' => match estep c x o with
                 | Raise => Raise
                 | Ok (x1, e1) => match erun c x1 ops' with Raise => Raise | Ok (x2, e2) => Ok (x2, e1 ++ e2) end
                 end
  end.

(* encoder_button.py:25-37: register_encoder keeps one mode for all encoders, the last one registered wins *)
Record ebutton := mkEbutton { b_encoders : list nat; b_cancel : bool }.
Definition new_ebutton : ebutton := mkEbutton [] false.
Definition register_encoder (b : ebutton) (e : nat) (cancel_mode : bool) : ebutton := mkEbutton (b_encoders b ++ [e]) cancel_mode.
(* encoder_button.py:32-37 push: (encoder, cancel?) *)
Definition button_push (b : ebutton) : list (nat * bool) := map (fun e => (e, b_cancel b)) (b_encoders b).
