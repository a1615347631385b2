(* SPECIFICATION: WHATWG HTML, 13.2.5.53-68 (DOCTYPE tokenizer states) and 13.2.6.4.1 (the "initial" insertion mode's tables) *)
From Verif Require Import Str.
Open Scope N_scope.

Record token := { t_name : option str; t_public : option str; t_system : option str; t_force : bool }.
Inductive state :=
| BeforeName | Name | AfterName | Keyword (skip : nat) (public : bool)
| AfterPublicKeyword | PublicId (quote : N) | AfterPublicId | Between
| AfterSystemKeyword | SystemId (quote : N) | AfterSystemId | Bogus.
Definition ws (c : N) : bool := (c =? 9) || (c =? 10) || (c =? 12) || (c =? 32).
Definition fffd (c : N) : N := if c =? 0 then 65533 else c.
Definition force (k : token) : token := {| t_name := t_name k; t_public := t_public k; t_system := t_system k; t_force := true |}.
Definition add (x : option str) (c : N) : option str := match x with Some s => Some (s ++ [fffd c])%list | None => Some [fffd c] end.
Definition add_name (k : token) (c : N) : token := {| t_name := add (t_name k) (alow_c c); t_public := t_public k; t_system := t_system k; t_force := t_force k |}.
Definition set_public (k : token) (x : option str) : token := {| t_name := t_name k; t_public := x; t_system := t_system k; t_force := t_force k |}.
Definition set_system (k : token) (x : option str) : token := {| t_name := t_name k; t_public := t_public k; t_system := x; t_force := t_force k |}.
(* the states "before DOCTYPE public/system identifier" behave as "after ... keyword" up to the errors reported, so they are merged *)
Fixpoint tokenize (st : state) (k : token) (s : str) : token * str :=
  match s with
  | [] => match st with Bogus => (k, []) | _ => (force k, []) end
  | c :: t =>
    match st with
    | BeforeName => if ws c then tokenize BeforeName k t else if c =? 62 then (force k, t) else tokenize Name (add_name k c) t
    | Name => if ws c then tokenize AfterName k t else if c =? 62 then (k, t) else tokenize Name (add_name k c) t
    | AfterName => if ws c then tokenize AfterName k t else if c =? 62 then (k, t)
                   else if starts (u "public") (alow s) then tokenize (Keyword 5 true) k t
                   else if starts (u "system") (alow s) then tokenize (Keyword 5 false) k t
                   else tokenize Bogus (force k) t
    | Keyword n public => if (n <=? 1)%nat then tokenize (if public then AfterPublicKeyword else AfterSystemKeyword) k t else tokenize (Keyword (n - 1) public) k t
    | AfterPublicKeyword => if ws c then tokenize AfterPublicKeyword k t else if (c =? 34) || (c =? 39) then tokenize (PublicId c) (set_public k (Some [])) t
                            else if c =? 62 then (force k, t) else tokenize Bogus (force k) t
    | PublicId q => if c =? q then tokenize AfterPublicId k t else if c =? 62 then (force k, t) else tokenize (PublicId q) (set_public k (add (t_public k) c)) t
    | AfterPublicId | Between => if ws c then tokenize Between k t else if c =? 62 then (k, t)
                       else if (c =? 34) || (c =? 39) then tokenize (SystemId c) (set_system k (Some [])) t else tokenize Bogus (force k) t
    | AfterSystemKeyword => if ws c then tokenize AfterSystemKeyword k t else if (c =? 34) || (c =? 39) then tokenize (SystemId c) (set_system k (Some [])) t
                            else if c =? 62 then (force k, t) else tokenize Bogus (force k) t
    | SystemId q => if c =? q then tokenize AfterSystemId k t else if c =? 62 then (force k, t) else tokenize (SystemId q) (set_system k (add (t_system k) c)) t
    | AfterSystemId => if ws c then tokenize AfterSystemId k t else if c =? 62 then (k, t) else tokenize Bogus k t
    | Bogus => if c =? 62 then (k, t) else tokenize Bogus k t
    end
  end.
(* 13.2.3.5 newlines are normalised before tokenization *)
Fixpoint newlines (after_cr : bool) (s : str) : str :=
  match s with
  | [] => []
  | c :: t => if c =? 13 then 10 :: newlines true t else if (c =? 10) && after_cr then newlines false t else c :: newlines false t
  end.
Definition no_token : token := {| t_name := None; t_public := None; t_system := None; t_force := false |}.
(* s: the input after <!DOCTYPE *)
Definition doctype_token (s : str) : token := fst (tokenize BeforeName no_token (newlines false s)).

Definition same (a b : str) : Prop := alow a = alow b.
Definition prefixed (p s : str) : Prop := exists a t, s = (a ++ t)%list /\ same a p.
Definition quirky_prefixes : list str :=
  [u "+//Silmaril//dtd html Pro v0r11 19970101//"; u "-//AS//DTD HTML 3.0 asWedit + extensions//"; u "-//AdvaSoft Ltd//DTD HTML 3.0 asWedit + extensions//";
   u "-//IETF//DTD HTML 2.0 Level 1//"; u "-//IETF//DTD HTML 2.0 Level 2//"; u "-//IETF//DTD HTML 2.0 Strict Level 1//"; u "-//IETF//DTD HTML 2.0 Strict Level 2//";
   u "-//IETF//DTD HTML 2.0 Strict//"; u "-//IETF//DTD HTML 2.0//"; u "-//IETF//DTD HTML 2.1E//"; u "-//IETF//DTD HTML 3.0//"; u "-//IETF//DTD HTML 3.2 Final//";
   u "-//IETF//DTD HTML 3.2//"; u "-//IETF//DTD HTML 3//"; u "-//IETF//DTD HTML Level 0//"; u "-//IETF//DTD HTML Level 1//"; u "-//IETF//DTD HTML Level 2//";
   u "-//IETF//DTD HTML Level 3//"; u "-//IETF//DTD HTML Strict Level 0//"; u "-//IETF//DTD HTML Strict Level 1//"; u "-//IETF//DTD HTML Strict Level 2//";
   u "-//IETF//DTD HTML Strict Level 3//"; u "-//IETF//DTD HTML Strict//"; u "-//IETF//DTD HTML//"; u "-//Metrius//DTD Metrius Presentational//";
   u "-//Microsoft//DTD Internet Explorer 2.0 HTML Strict//"; u "-//Microsoft//DTD Internet Explorer 2.0 HTML//"; u "-//Microsoft//DTD Internet Explorer 2.0 Tables//";
   u "-//Microsoft//DTD Internet Explorer 3.0 HTML Strict//"; u "-//Microsoft//DTD Internet Explorer 3.0 HTML//"; u "-//Microsoft//DTD Internet Explorer 3.0 Tables//";
   u "-//Netscape Comm. Corp.//DTD HTML//"; u "-//Netscape Comm. Corp.//DTD Strict HTML//"; u "-//O'Reilly and Associates//DTD HTML 2.0//";
   u "-//O'Reilly and Associates//DTD HTML Extended 1.0//"; u "-//O'Reilly and Associates//DTD HTML Extended Relaxed 1.0//";
   u "-//SQ//DTD HTML 2.0 HoTMetaL + extensions//"; u "-//SoftQuad Software//DTD HoTMetaL PRO 6.0::19990601::extensions to HTML 4.0//";
   u "-//SoftQuad//DTD HoTMetaL PRO 4.0::19971010::extensions to HTML 4.0//"; u "-//Spyglass//DTD HTML 2.0 Extended//"; u "-//Sun Microsystems Corp.//DTD HotJava HTML//";
   u "-//Sun Microsystems Corp.//DTD HotJava Strict HTML//"; u "-//W3C//DTD HTML 3 1995-03-24//"; u "-//W3C//DTD HTML 3.2 Draft//"; u "-//W3C//DTD HTML 3.2 Final//";
   u "-//W3C//DTD HTML 3.2//"; u "-//W3C//DTD HTML 3.2S Draft//"; u "-//W3C//DTD HTML 4.0 Frameset//"; u "-//W3C//DTD HTML 4.0 Transitional//";
   u "-//W3C//DTD HTML Experimental 19960712//"; u "-//W3C//DTD HTML Experimental 970421//"; u "-//W3C//DTD W3 HTML//"; u "-//W3O//DTD W3 HTML 3.0//";
   u "-//WebTechs//DTD Mozilla HTML 2.0//"; u "-//WebTechs//DTD Mozilla HTML//"].
Definition html4_prefixes : list str := [u "-//W3C//DTD HTML 4.01 Frameset//"; u "-//W3C//DTD HTML 4.01 Transitional//"].
(* the conditions for quirks mode and for limited-quirks mode *)
Definition is_quirks (k : token) : Prop :=
  t_force k = true \/
  t_name k <> Some (u "html") \/
  (exists p q, t_public k = Some p /\ In q [u "-//W3O//DTD W3 HTML Strict 3.0//EN//"; u "-/W3C/DTD HTML 4.0 Transitional/EN"; u "HTML"] /\ same p q) \/
  (exists s, t_system k = Some s /\ same s (u "http://www.ibm.com/data/dtd/v11/ibmxhtml1-transitional.dtd")) \/
  (exists p q, t_public k = Some p /\ In q quirky_prefixes /\ prefixed q p) \/
  (exists p q, t_system k = None /\ t_public k = Some p /\ In q html4_prefixes /\ prefixed q p).
Definition is_limited (k : token) : Prop :=
  (exists p q, t_public k = Some p /\ In q [u "-//W3C//DTD XHTML 1.0 Frameset//"; u "-//W3C//DTD XHTML 1.0 Transitional//"] /\ prefixed q p) \/
  (exists p q s, t_system k = Some s /\ t_public k = Some p /\ In q html4_prefixes /\ prefixed q p).
