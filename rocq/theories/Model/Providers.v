(* The contents of the lists for choosing actions, controllers and presets in the web application: /repo/web/htdocs/js/ui/parser/ActionsProvider.js 30-92,
   js/ui/misc/PortsProvider.js 29-64, js/ui/presets/LocalPresetsProvider.js 28-128, js/ui/misc/SingleEntryProvider.js 20-36.
   How the lists are sorted, joined and shown is in Browse.v. Left out: icons and links of the entries, deleting and renaming of presets (Storage.v). *)
From Coq Require Import String.
From Verif.Lib Require Import Base.
From Verif.Model Require Import Scan.
Local Open Scope list_scope.
Local Open Scope string_scope.

(* ---- actions ---- *)

(* An action with the kind of input it is for; clients with their actions (BaseParser getAvailableActions) *)
Record action := mkAction { a_name : string; a_target : string }.
Record client := mkClient { c_name : string; c_actions : list action }.
(* An entry of the list *)
Definition entry := (string * string)%type.

(* ActionsProvider.js 55-83: the entries, one client after the other *)
Definition of_client (target : string) (c : client) : list entry :=
  map (fun a => (c_name c, a_name a)) (filter (fun a => String.eqb (a_target a) target) (c_actions c)).
Definition entries (target : string) (l : list client) : list entry := flat_map (of_client target) l.
(* ActionsProvider.js 75-77: the entry with the wanted name; a later one replaces an earlier one. An empty name is none *)
Definition by_name (wanted : string) (l : list entry) : option entry :=
  if String.eqb wanted "" then None else fold_left (fun r e => if String.eqb (snd e) wanted then Some e else r) l None.
(* ActionsProvider.js 86-89 *)
Definition preselected (wanted : string) (l : list entry) : option entry := match l with [e] => Some e | _ => by_name wanted l end.
(* ActionsProvider.js 30-31, ParserFrontendInput.js 436-448: a provider is made for each dialog, so that the stored list (#toc) is never an old one *)

(* ---- ports ---- *)

(* The inputs and outputs as they are now *)
Definition ports := (list port * list port)%type.
(* PortsProvider.js 29-64: the list and what remains stored. [more]: the additional entries *)
Definition open_ports (more : list string) (toc : option (list string)) (p : ports) : option (list string) * list string :=
  match toc with
  | Some l => (toc, l)
  | None => let l := (pairs (fst p) (snd p) ++ more)%list in (Some l, l)
  end.
(* PySwitchUI.js 353-370, 439-456, 548-589: the same provider is used as long as the web application runs. What was shown each time, with the ports of that time *)
Fixpoint openings (more : list string) (toc : option (list string)) (h : list ports) : list (list string) :=
  match h with [] => [] | p :: h => let r := open_ports more toc p in snd r :: openings more (fst r) h end.

(* ---- presets ---- *)

(* An entry of the list: a preset, or the one for a new preset *)
Inductive preset_entry := Preset (id : string) | NewPreset.
(* LocalPresetsProvider.js 91-125: made again each time *)
Definition presets (new : bool) (ids : list string) : list preset_entry := (map Preset ids ++ if new then [NewPreset] else [])%list.

(* ---- single entries ---- *)

(* SingleEntryProvider.js 20-36. condition: the result of the callback, if any *)
Definition single (text : string) (condition : option bool) : option string := match condition with Some false => None | _ => Some text end.
