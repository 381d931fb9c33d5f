(* C75: notions for the bank encoder among rig and bank switches. The device is that of Spec/Rig.v. *)
From Verif.Lib Require Import Base.
From Verif.Model Require Import Midi Encoder Rig BankEncoder.
From Verif.Spec Require Import Encoder Rig.

(* What happened and what was sent then *)
Definition log := list (bop * list (option nat * msg)).
Definition happened (cfg : nat -> cb) (fuel : nat) (c : econf) (t : log) (w : bworld) : Prop :=
  brun cfg fuel c (new_bworld cfg) (map fst t) = Some (w, t).
(* All messages, in order *)
Definition sent (t : log) : list msg := map snd (flat_map snd t).

(* The bank the encoder sent in this step *)
Definition enc_sent (x : bop * list (option nat * msg)) : option Z :=
  match x with (BTurn _, (None, CC 47 b) :: _) => Some b | _ => None end.
Definition is_turned (x : bop * list (option nat * msg)) : option Z := match fst x with BTurn p => Some p | _ => None end.
Definition reported (x : bop * list (option nat * msg)) : option (option Z) := match fst x with BSwitch (Report id) => Some id | _ => None end.

(* Last bank the encoder sent; its last position; the bank it counts from: reported, or sent by itself since *)
Fixpoint last_of {A B} (f : A -> option B) (l : list A) (d : option B) : option B :=
  match l with [] => d | x :: r => last_of f r (match f x with Some y => Some y | None => d end) end.
Definition last_bank_sent (t : log) : option Z := last_of enc_sent t None.
Definition last_position (t : log) : option Z := last_of is_turned t None.
Definition counts_from (t : log) : option Z :=
  match last_of (fun x => match reported x with Some (Some id) => Some (Some (id / 5)) | Some None => Some None
                                           | None => match enc_sent x with Some b => Some (Some b) | None => None end end) t None with
  | Some b => b | None => None end.

(* The bank shown: the preselected one, else that of the current rig *)
Definition bank_shown (w : bworld) : option Z :=
  match s_pre (w_sh (bw_sw w)), w_id (bw_sw w) with Some b, _ => Some b | None, Some id => Some (id / 5) | None, None => None end.

(* The device reported rig id last, and the encoder sent nothing since *)
Definition undisturbed (t : log) (id : Z) : Prop := exists t1 e t2, t = t1 ++ (BSwitch (Report (Some id)), e) :: t2 /\
  forall x, In x t2 -> reported x = None /\ enc_sent x = None.
(* Since the device reported rig id last, nothing happened but turning the encoder; no bank was preselected before *)
Definition only_turned (cfg : nat -> cb) (fuel : nat) (c : econf) (t : log) (id : Z) : Prop := exists t1 w1 e t2,
  t = t1 ++ (BSwitch (Report (Some id)), e) :: t2 /\ happened cfg fuel c t1 w1 /\ s_pre (w_sh (bw_sw w1)) = None /\
  forall x, In x t2 -> is_turned x <> None.
Definition log_valid (t : log) : Prop := forall x id, In x t -> reported x = Some (Some id) -> valid_id id.
