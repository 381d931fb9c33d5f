(* clients/kemper/actions/bank_select_encoder.py together with the rig and bank switches of Rig.v, which work with two parameter
   mappings: "Rig ID" (kemper/__init__.py:538-550; used by rig_select.py:80, rig_up_down.py:88) and "Select Bank"
   (mappings/select.py:33-50; used by bank_select.py:60, bank_up_down.py:29, 64 in preselect mode, bank_select_encoder.py:35).
   Both get their value from the same messages of the device, but the encoder also stores the bank it has sent in the second one. *)
From Verif.Lib Require Import Base.
From Verif.Model Require Import Midi Encoder Rig.

(* bank_select_encoder.py:9-43: [num]/[den] is step_width; no accept action, so no preselection in the sense of EncoderAction *)
Definition bank_encoder (num den : Z) (preview : bool) : econf := mkEconf 0 (NUM_BANKS - 1) num den false preview false true.

(* Switches (w_id is the value of "Rig ID"), and the encoder (x_val is the value of "Select Bank") *)
Record bworld := mkBworld { bw_sw : world; bw_enc : enc }.
Definition new_bworld (cfg : nat -> cb) : bworld := mkBworld (new_world cfg) new_enc.
Definition bank_value (w : bworld) : option Z := x_val (bw_enc w).

(* A switch is pressed, let go or redrawn, the device reports its rig (see Rig.v), or the encoder is polled at a position *)
Inductive bop := BSwitch (o : wop) | BTurn (p : Z).

(* The value of the mapping which the callback of switch k looks at (see above; without preselect mode the value is not used when a bank
   up/down switch is pressed) *)
Definition looks_at (b : cb) (w : bworld) : option Z :=
  match b with BankSelect _ | BankChange _ => bank_value w | RigSelect _ | RigChange _ _ => w_id (bw_sw w) end.
Definition at_switch (cfg : nat -> cb) (fuel : nat) (w : bworld) (k : nat) (o : wop) : option (bworld * list (option nat * msg)) :=
  match wstep cfg fuel (mkWorld (looks_at (cfg k) w) (w_sh (bw_sw w)) (w_st (bw_sw w))) o with
  | None => None
  | Some (s, ev) => Some (mkBworld (mkWorld (w_id (bw_sw w)) (w_sh s) (w_st s)) (bw_enc w), map (fun e => (Some (fst e), snd e)) ev)
  end.

(* What the encoder does beyond its own state: client.set(mapping, v) sends CC 47 v (mappings/select.py:33-38, client.py:291-310),
   shared["preselectedBank"] (bank_select_encoder.py:62) *)
Definition enc_shared (sh : shared) (e : eevent) : shared := match e with EShared v => mkShared (Some v) (s_morph sh) | _ => sh end.
Definition enc_msgs (e : eevent) : list (option nat * msg) := match e with ESet v => [(None, bank_select v)] | _ => [] end.

(* events: who sent what (None: the encoder). None: an exception, or the call never returns. *)
Definition bstep (cfg : nat -> cb) (fuel : nat) (c : econf) (w : bworld) (o : bop) : option (bworld * list (option nat * msg)) :=
  match o with
  | BSwitch (Report id) =>
      Some (mkBworld (mkWorld id (w_sh (bw_sw w)) (w_st (bw_sw w)))
                     (mkEnc (x_pos (bw_enc w)) (x_last (bw_enc w)) (x_active (bw_enc w)) (x_seen (bw_enc w)) id (x_watch (bw_enc w))), [])
  | BSwitch (Press k) => at_switch cfg fuel w k (Press k)
  | BSwitch (Let_go k) => at_switch cfg fuel w k (Let_go k)
  | BSwitch (Draw k) => at_switch cfg fuel w k (Draw k)
  | BTurn p =>
      match process c (bw_enc w) p with
      | Raise => None
      | Ok (x, e) => Some (mkBworld (mkWorld (w_id (bw_sw w)) (fold_left enc_shared e (w_sh (bw_sw w))) (w_st (bw_sw w))) x, flat_map enc_msgs e)
      end
  end.

(* A history with what was sent in each step *)
Fixpoint brun (cfg : nat -> cb) (fuel : nat) (c : econf) (w : bworld) (ops : list bop) : option (bworld * list (bop * list (option nat * msg))) :=
  match ops with
  | [] => Some (w, [])
  | o :: ops' => match bstep cfg fuel c w o with
                 | None => None
                 | Some (w1, e1) => match brun cfg fuel c w1 ops' with None => None | Some (w2, t2) => Some (w2, (o, e1) :: t2) end
                 end
  end.
