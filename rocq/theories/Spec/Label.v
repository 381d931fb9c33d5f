(* What a label shows, defined on the history of what was done with it and on the calls of the display library. *)
From Verif.Lib Require Import Base.
From Verif.Model Require Import Midi Label.
From Coq Require Import String.
Local Open Scope Z_scope.

(* The screen: what the calls of the display library amount to. *)
Record screen := mkScreen { s_text : string; s_color : option rgb; s_back : option back }.
Definition draw (s : option screen) (d : dev) : option screen :=
  match d, s with
  | DNew t c b, _ => Some (mkScreen t c b)
  | DText t, Some x => Some (mkScreen t (s_color x) (s_back x))
  | DColor c, Some x => Some (mkScreen (s_text x) (Some c) (s_back x))
  | DBack b, Some x => Some (mkScreen (s_text x) (s_color x) (Some b))
  | _, None => None
  end.
Definition screen_of (ds : list dev) : option screen := fold_left draw ds None.

(* Facts about a history: initialised; the last warning given; the last override text. *)
Definition shown (h : list lop) : Prop := In LInit h.
Fixpoint low_of (h : list lop) (d : bool) : bool := match h with [] => d | LLow b :: h' => low_of h' b | _ :: h' => low_of h' d end.
Fixpoint over_of (h : list lop) (d : string) : string := match h with [] => d | LOver t :: h' => over_of h' t | _ :: h' => over_of h' d end.
Definition warned (h : list lop) : Prop := shown h /\ low_of h false = true.

(* Operation o after history h asks the label to show t: it is assigned, or it is the override text of a label being refreshed, or
   what its callback wants while there is no override text. Initialising asks for nothing, except that a warning shows up. *)
Inductive asks (h : list lop) : lop -> string -> Prop :=
| asks_text t : asks h (LText t) t
| asks_over t cb : over_of h "" = t -> t <> ""%string -> asks h (LRefresh cb) t
| asks_cb t : over_of h "" = ""%string -> asks h (LRefresh (Some t)) t.
Inductive writes (h : list lop) (o : lop) : string -> Prop :=
| writes_asked t : asks h o t -> ~ warned h -> writes h o t
| writes_warned t : asks h o t -> warned h -> writes h o "Low Memory!"
| writes_init : o = LInit -> ~ shown h -> low_of h false = true -> writes h o "Low Memory!".

(* t is the last text written in history h, on top of the text the label was configured with. *)
Definition last_written (t0 : string) (h : list lop) (t : string) : Prop :=
  (exists h1 o h2, h = h1 ++ o :: h2 /\ writes h1 o t /\ forall k1 o' k2 t', h2 = k1 ++ o' :: k2 -> ~ writes (h1 ++ o :: k1) o' t') \/
  (t = t0 /\ forall k1 o' k2 t', h = k1 ++ o' :: k2 -> ~ writes k1 o' t').

(* The empty text is never wrapped. *)
Definition wraps (w : string -> string) (t : string) : string := match t with EmptyString => EmptyString | _ => w t end.

(* Perceived brightness of a colour in 1/10000: 21.26 % red, 71.51 % green, 7.21 % blue. Brightness of what is behind a text; without a
   background the screen is black. *)
Definition brightness (c : rgb) : Z := 2126 * fst (fst c) + 7151 * snd (fst c) + 721 * snd c.
Definition behind (b : option back) : rgb := match b with Some (Solid c) => c | _ => (0, 0, 0) end.
Definition solid (b : option back) : bool := match b with Some (Rainbow _) => false | _ => true end.

(* No text colour is assigned in h / only one-coloured backgrounds are. *)
Definition colourless (h : list lop) : Prop := forall c, In (LColor (Some c)) h -> False.
Definition plain_backs (h : list lop) : Prop := forall c, In (LBack c) h -> solid c = true.
Definition is_none {A} (o : option A) : bool := match o with None => true | Some _ => false end.

(* The background changes to b in history h: an assignment of something else than what was last assigned. *)
Fixpoint last_back (h : list lop) (d : option back) : option back := match h with [] => d | LBack b :: h' => last_back h' b | _ :: h' => last_back h' d end.

(* --- rig label --- *)

(* The last values the device has sent, and the preselected bank. *)
Fixpoint name_of (h : list rop) (d : option string) : option string := match h with [] => d | RName v :: h' => name_of h' v | _ :: h' => name_of h' d end.
Fixpoint id_of (h : list rop) (d : option Z) : option Z := match h with [] => d | RId v :: h' => id_of h' v | _ :: h' => id_of h' d end.
Fixpoint pre_of (h : list rop) (d : option Z) : option Z := match h with [] => d | RShared v :: h' => pre_of h' v | _ :: h' => pre_of h' d end.

(* Rig ids count from 0, five to a bank; banks and rigs are shown counting from 1. *)
Definition id_parts (m : idmode) (id : option Z) : list string :=
  match m, id with
  | IdOff, _ | _, None => []
  | IdRig, Some v => [dec (1 + v mod 5)]
  | IdBank, Some v => [dec (1 + v / 5)]
  | IdBoth, Some v => [dec (1 + v / 5) ++ "-" ++ dec (1 + v mod 5)]%string
  end.
Definition name_parts (c : rconf) (n : option string) : list string :=
  if rc_name c then [match n with None | Some EmptyString => rc_default c | Some x => x end] else [].
Definition rig_label (c : rconf) (n : option string) (id : option Z) : string :=
  String.concat " " (id_parts (rc_id c) id ++ name_parts c n).
Definition bank_label (b : Z) : string := ("Bank " ++ dec (b + 1))%string.
Definition to_show (c : rconf) (h : list rop) : string :=
  match pre_of h None with Some b => bank_label b | None => rig_label c (name_of h None) (id_of h None) end.

(* An answer for one of the parameters shown, or one of them given up. *)
Definition answers (c : rconf) (o : rop) : Prop :=
  match o with RName _ => rc_name c = true | RId _ => rc_id c <> IdOff | _ => False end.
(* The label is only initialised, not used by others. *)
Definition own (h : list rop) : Prop := forall o, In (RLabel o) h -> o = LInit.
Definition ids_valid (h : list rop) : Prop := forall v, In (RId (Some v)) h -> 0 <= v.
Definition screen_text (ds : list dev) : option string := option_map s_text (screen_of ds).
(* The last update before which the label was initialised happened while p was preselected. *)
Definition at_last_update (h : list rop) (p : option Z) : Prop :=
  exists k1 k2, h = k1 ++ RUpdate :: k2 /\ ~ In RUpdate k2 /\ In (RLabel LInit) k1 /\ pre_of k1 None = p.
