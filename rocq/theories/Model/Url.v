(* Navigation in the web application: from the name of a configuration to an URL and back. /repo/web/htdocs/js/routing/Routing.js, js/Controller.js, js/ui/PySwitchUI.js,
   js/model/configurations/WebConfiguration.js, lib/sammy-latest.min.js. Names are given by the bytes of their UTF-8 encoding; that decoded bytes are UTF-8 again is not checked
   (decodeURI throws an URIError otherwise), which only matters for presets whose names contain percent signs. *)
From Coq Require Import String Ascii.
From Verif.Lib Require Import Base.
Open Scope string_scope.
Local Open Scope list_scope.
Local Open Scope nat_scope.

Fixpoint mem (c : ascii) (s : string) : bool := match s with EmptyString => false | String d s => Ascii.eqb c d || mem c s end.
Definition range (a b : ascii) (c : ascii) : bool := (nat_of_ascii a <=? nat_of_ascii c) && (nat_of_ascii c <=? nat_of_ascii b).

(* The characters with a meaning in URLs, which decodeURI leaves escaped, and the ones encodeURI does not escape (ECMAScript: encodeURI, decodeURI) *)
Definition reserved (c : ascii) : bool := mem c ";/?:@&=+$,#".
Definition unescaped (c : ascii) : bool := range "A" "Z" c || range "a" "z" c || range "0" "9" c || mem c "-_.!~*'()" || reserved c.
Definition digit (n : nat) : ascii := if n <? 10 then ascii_of_nat (48 + n) else ascii_of_nat (55 + n).
Definition hex (c : ascii) : option nat :=
  let n := nat_of_ascii c in
  if range "0" "9" c then Some (n - 48) else if range "A" "F" c then Some (n - 55) else if range "a" "f" c then Some (n - 87) else None.
Definition escape (c : ascii) : string := String "%" (String (digit (nat_of_ascii c / 16)) (String (digit (nat_of_ascii c mod 16)) EmptyString)).
Fixpoint encode (s : string) : string := match s with EmptyString => EmptyString | String c s => ((if unescaped c then String c EmptyString else escape c) ++ encode s)%string end.
(* None: an URIError is thrown. [keep]: these stay escaped *)
Fixpoint decode (keep : ascii -> bool) (s : string) : option string :=
  match s with
  | EmptyString => Some EmptyString
  | String c r =>
      if Ascii.eqb c "%" then
        match r with
        | String h (String l r') =>
            match hex h, hex l, decode keep r' with
            | Some a, Some b, Some t => let d := ascii_of_nat (16 * a + b) in Some (if keep d then String c (String h (String l t)) else String d t)
            | _, _, _ => None
            end
        | _ => None
        end
      else match decode keep r with Some t => Some (String c t) | None => None end
  end.
Definition decode_uri : string -> option string := decode reserved.
Definition decode_component : string -> option string := decode (fun _ => false).

(* Routing.js 148-149 call: the URL which is opened. [base]: the path of the page *)
Definition link (base path : string) : string := (base ++ "#" ++ encode path)%string.
(* Controller.js 252-255 getControllerUrl; PySwitchUI.js 376, 490; ExamplesProvider.js 31, TemplatesProvider.js 31 (callPath begins with a slash); LocalFolderSelection.js 44 *)
Definition controller_link (base port : string) : string := link base (encode ("controller/" ++ port)%string).
Definition preset_link (base id : string) : string := link base (encode ("preset/" ++ id)%string).
Definition example_link (base path : string) : string := link base (encode ("example/" ++ path)%string).
Definition template_link (base path : string) : string := link base (encode ("template/" ++ path)%string).
Definition folder_link (base : string) : string := link base "localfolder".

(* sammy.js _decode: + is a space *)
Fixpoint spaces (s : string) : string := match s with EmptyString => EmptyString | String c s => String (if Ascii.eqb c "+" then " "%char else c) (spaces s) end.
Definition sammy_decode (s : string) : option string := decode_component (spaces s).
(* sammy.js routablePath: the query string is removed, beginning with the first question mark which is not followed by a hash mark *)
Fixpoint routable (s : string) : string := match s with EmptyString => EmptyString | String c r => if Ascii.eqb c "?" && negb (mem "#" r) then EmptyString else String c (routable r) end.
(* Regular expressions: p at the end; what comes after the first p *)
Fixpoint ends (p s : string) : bool := String.eqb s p || match s with EmptyString => false | String _ r => ends p r end.
Fixpoint after (p s : string) : option string :=
  if prefix p s then Some (substring (String.length p) (String.length s - String.length p) s) else match s with EmptyString => None | String _ r => after p r end.
(* The last component of a path (split, pop) *)
Fixpoint last_part (acc s : string) : string := match s with EmptyString => acc | String c s => if Ascii.eqb c "/" then last_part EmptyString s else last_part (acc ++ String c EmptyString)%string s end.

(* What is opened: the scan for controllers, a configuration on a controller, the default one, one from the web with the title and the URL its files are loaded from, a preset, the local folder; no route; an error *)
Inductive opened := Scan | Controller (port : string) | Default | Web (title url : string) | Preset (id : string) | Folder | NotFound | Fails.
(* WebConfiguration.js 8-17 *)
Definition web (url : string) : opened := match decode_uri url with Some u => Web (last_part "" u) url | None => Fails end.
(* The routes, Routing.js 43-95 *)
Definition controller_route (splat : string) : opened :=
  match decode_uri splat with None => Fails | Some p => if String.eqb p "pyswitch-default" then Default else Controller p end.
Definition web_route (folder splat : string) : opened := match decode_uri splat with None => Fails | Some p => web (folder ++ encode p)%string end.
Definition preset_route (splat : string) : opened := match decode_uri splat with None => Fails | Some p => match decode_uri p with None => Fails | Some id => Preset id end end.
(* sammy.js runRoute: the parameter is decoded *)
Definition splat (k : string -> opened) (s : string) : opened := match sammy_decode s with Some p => k p | None => Fails end.
(* sammy.js lookupRoute, runRoute, with the routes in the order of Routing.js 43-95. Routes given as a string match at the end, the others anywhere *)
Definition open (url : string) : opened :=
  let path := routable url in
  if ends "#" path then Scan else if ends "#/" path then Scan
  else match after "#controller/" path with Some s => splat controller_route s | None =>
       match after "#example/" path with Some s => splat (web_route "examples/") s | None =>
       match after "#template/" path with Some s => splat (web_route "templates/") s | None =>
       match after "#preset/" path with Some s => splat preset_route s | None =>
       if ends "#localfolder" path then Folder else NotFound end end end end.
