(* SPECIFICATION (independent of /repo): the WHATWG HTML tokenizer, section 13.2.5, as an executable state
   machine.  Parse errors are not recorded.  Differences from the standard's text:
   - a state carries its own buffers (current tag, comment, doctype, temporary buffer) instead of mutating
     global ones; the only global register is the name of the last start tag emitted;
   - character references are consumed at once by [charref] (HtmlCharRefSpec.v) instead of through states;
   - the content model switch that tree construction performs after a start tag (13.2.6.4.4, .7) is a function of
     the tag name, [switch]; tag names are those of HTML elements (no foreign content), "scripting" is a parameter;
   - "[CDATA[" is a bogus comment (the adjusted current node is an HTML element). *)
From Verif Require Import Str HtmlCharRefSpec.
Open Scope N_scope.

Inductive token :=
| TStart (name : str) (attrs : list (str * str)) (self_closing : bool)
| TEnd (name : str)
| TComment (data : str)
| TDoctype (name pub sys : option str) (force_quirks : bool)
| TChar (c : N).

Record tag := Tag { t_end : bool; t_name : str; t_attrs : list (str * str) }.
Record dt := Dt { d_name : option str; d_pub : option str; d_sys : option str }.
Definition dt0 := Dt None None None.

(* where the end-tag-name states of RCDATA / RAWTEXT / script data / script data escaped return to *)
Inductive raw := RRcdata | RRawtext | RScript | RScriptEsc.

Inductive state :=
| Data | Rcdata | Rawtext | ScriptData | Plaintext
| TagOpen | EndTagOpen | TagName (e : bool) (n : str)
| RawLT (r : raw) | RawEndOpen (r : raw) | RawEndName (r : raw) (buf : str)
| ScriptEscStart | ScriptEscStartDash
| ScriptEsc | ScriptEscDash | ScriptEscDashDash
| ScriptDblStart (buf : str) | ScriptDbl | ScriptDblDash | ScriptDblDashDash | ScriptDblLT | ScriptDblEnd (buf : str)
| BeforeAttrName (t : tag) | AttrName (t : tag) (n : str) | AfterAttrName (t : tag) (n : str)
| BeforeAttrValue (t : tag) (n : str)
| AttrValDQ (t : tag) (n v : str) | AttrValSQ (t : tag) (n v : str) | AttrValUnq (t : tag) (n v : str)
| AfterAttrValQuoted (t : tag) | SelfClosing (t : tag)
| BogusComment (d : str) | MarkupDecl
| CommentStart | CommentStartDash | Comment (d : str)
| CommentLT (d : str) | CommentLTBang (d : str) | CommentLTBangDash (d : str) | CommentLTBangDashDash (d : str)
| CommentEndDash (d : str) | CommentEnd (d : str) | CommentEndBang (d : str)
| Doctype | BeforeDoctypeName | DoctypeName (n : str) | AfterDoctypeName (d : dt)
| AfterPubKw (d : dt) | BeforePubId (d : dt) | PubDQ (d : dt) (v : str) | PubSQ (d : dt) (v : str)
| AfterPubId (d : dt) | BetweenPubSys (d : dt)
| AfterSysKw (d : dt) | BeforeSysId (d : dt) | SysDQ (d : dt) (v : str) | SysSQ (d : dt) (v : str)
| AfterSysId (d : dt) | BogusDoctype (d : dt) (q : bool).

(* tab, LF, FF, space (CR does not occur after input stream preprocessing) *)
Definition ws (c : N) : bool := (c =? 9) || (c =? 10) || (c =? 12) || (c =? 32).
Definition nul (c : N) : N := if c =? 0 then 65533 else c.
Definition snoc (s : str) (c : N) : str := (s ++ [c])%list.
Definition chars (s : str) : list token := map TChar s.

(* "if there is already an attribute on the token with the exact same name, ... the new attribute must be removed" *)
Definition add_attr (t : tag) (n v : str) : tag :=
  Tag (t_end t) (t_name t)
      (if existsb (fun p => str_eqb n (fst p)) (t_attrs t) then t_attrs t else (t_attrs t ++ [(n, v)])%list).

(* content model after a start tag, 13.2.6.4.7 "in body" / 13.2.6.4.4 "in head" *)
Definition switch (scripting : bool) (n : str) : state :=
  if in_strs n [u "textarea"; u "title"] then Rcdata
  else if in_strs n [u "style"; u "xmp"; u "iframe"; u "noembed"; u "noframes"] then Rawtext
  else if str_eqb n (u "script") then ScriptData
  else if str_eqb n (u "plaintext") then Plaintext
  else if str_eqb n (u "noscript") then (if scripting then Rawtext else Data)
  else Data.

Definition raw_state (r : raw) : state :=
  match r with RRcdata => Rcdata | RRawtext => Rawtext | RScript => ScriptData | RScriptEsc => ScriptEsc end.

(* What processing one character does: tokens emitted, then either the character is consumed together with [n]
   characters of lookahead, or it is reconsumed in the new state.  [last] = last start tag name. *)
Inductive act :=
| Eat (e : list token) (n : nat) (s : state)
| Again (e : list token) (s : state)
| Emit (t : tag) (self_closing : bool).

Definition eat (s : state) : act := Eat [] O s.
Definition out (c : N) (s : state) : act := Eat [TChar c] O s.

Definition step (last : str) (s : state) (c : N) (rest : str) : act :=
  match s with
  (* 13.2.5.1 *) | Data =>
    if c =? 38 then match charref false rest with Some (v, n) => Eat (chars v) n Data | None => out c Data end
    else if c =? 60 then eat TagOpen else out c Data
  (* 13.2.5.2 *) | Rcdata =>
    if c =? 38 then match charref false rest with Some (v, n) => Eat (chars v) n Rcdata | None => out c Rcdata end
    else if c =? 60 then eat (RawLT RRcdata) else out (nul c) Rcdata
  (* 13.2.5.3 *) | Rawtext => if c =? 60 then eat (RawLT RRawtext) else out (nul c) Rawtext
  (* 13.2.5.4 *) | ScriptData => if c =? 60 then eat (RawLT RScript) else out (nul c) ScriptData
  (* 13.2.5.5 *) | Plaintext => out (nul c) Plaintext
  (* 13.2.5.6 *) | TagOpen =>
    if c =? 33 then eat MarkupDecl
    else if c =? 47 then eat EndTagOpen
    else if is_alpha_ascii c then Again [] (TagName false [])
    else if c =? 63 then Again [] (BogusComment [])
    else Again [TChar 60] Data
  (* 13.2.5.7 *) | EndTagOpen =>
    if is_alpha_ascii c then Again [] (TagName true [])
    else if c =? 62 then eat Data
    else Again [] (BogusComment [])
  (* 13.2.5.8 *) | TagName e n =>
    if ws c then eat (BeforeAttrName (Tag e n []))
    else if c =? 47 then eat (SelfClosing (Tag e n []))
    else if c =? 62 then Emit (Tag e n []) false
    else eat (TagName e (snoc n (nul (alow_c c))))
  (* 13.2.5.9, .12, .15, .23 *) | RawLT r =>
    if c =? 47 then eat (RawEndOpen r)
    else match r with
    | RScript => if c =? 33 then Eat [TChar 60; TChar 33] O ScriptEscStart else Again [TChar 60] ScriptData
    | RScriptEsc => if is_alpha_ascii c then Again [TChar 60] (ScriptDblStart []) else Again [TChar 60] ScriptEsc
    | _ => Again [TChar 60] (raw_state r)
    end
  (* 13.2.5.10, .13, .16, .24 *) | RawEndOpen r =>
    if is_alpha_ascii c then Again [] (RawEndName r [])
    else Again [TChar 60; TChar 47] (raw_state r)
  (* 13.2.5.11, .14, .17, .25 *) | RawEndName r buf =>
    if ws c && str_eqb (alow buf) last then eat (BeforeAttrName (Tag true (alow buf) []))
    else if (c =? 47) && str_eqb (alow buf) last then eat (SelfClosing (Tag true (alow buf) []))
    else if (c =? 62) && str_eqb (alow buf) last then Emit (Tag true (alow buf) []) false
    else if is_alpha_ascii c then eat (RawEndName r (snoc buf c))
    else Again (TChar 60 :: TChar 47 :: chars buf) (raw_state r)
  (* 13.2.5.18 *) | ScriptEscStart => if c =? 45 then out c ScriptEscStartDash else Again [] ScriptData
  (* 13.2.5.19 *) | ScriptEscStartDash => if c =? 45 then out c ScriptEscDashDash else Again [] ScriptData
  (* 13.2.5.20 *) | ScriptEsc =>
    if c =? 45 then out c ScriptEscDash else if c =? 60 then eat (RawLT RScriptEsc) else out (nul c) ScriptEsc
  (* 13.2.5.21 *) | ScriptEscDash =>
    if c =? 45 then out c ScriptEscDashDash else if c =? 60 then eat (RawLT RScriptEsc) else out (nul c) ScriptEsc
  (* 13.2.5.22 *) | ScriptEscDashDash =>
    if c =? 45 then out c ScriptEscDashDash
    else if c =? 60 then eat (RawLT RScriptEsc)
    else if c =? 62 then out c ScriptData
    else out (nul c) ScriptEsc
  (* 13.2.5.26 *) | ScriptDblStart buf =>
    if ws c || (c =? 47) || (c =? 62)
    then out c (if str_eqb buf (u "script") then ScriptDbl else ScriptEsc)
    else if is_alpha_ascii c then out c (ScriptDblStart (snoc buf (alow_c c)))
    else Again [] ScriptEsc
  (* 13.2.5.27 *) | ScriptDbl =>
    if c =? 45 then out c ScriptDblDash else if c =? 60 then out c ScriptDblLT else out (nul c) ScriptDbl
  (* 13.2.5.28 *) | ScriptDblDash =>
    if c =? 45 then out c ScriptDblDashDash else if c =? 60 then out c ScriptDblLT else out (nul c) ScriptDbl
  (* 13.2.5.29 *) | ScriptDblDashDash =>
    if c =? 45 then out c ScriptDblDashDash
    else if c =? 60 then out c ScriptDblLT
    else if c =? 62 then out c ScriptData
    else out (nul c) ScriptDbl
  (* 13.2.5.30 *) | ScriptDblLT => if c =? 47 then out c (ScriptDblEnd []) else Again [] ScriptDbl
  (* 13.2.5.31 *) | ScriptDblEnd buf =>
    if ws c || (c =? 47) || (c =? 62)
    then out c (if str_eqb buf (u "script") then ScriptEsc else ScriptDbl)
    else if is_alpha_ascii c then out c (ScriptDblEnd (snoc buf (alow_c c)))
    else Again [] ScriptDbl
  (* 13.2.5.32 *) | BeforeAttrName t =>
    if ws c then eat s
    else if (c =? 47) || (c =? 62) then Again [] (AfterAttrName t [])
    else if c =? 61 then eat (AttrName t [c])
    else Again [] (AttrName t [])
  (* 13.2.5.33 *) | AttrName t n =>
    if ws c || (c =? 47) || (c =? 62) then Again [] (AfterAttrName t n)
    else if c =? 61 then eat (BeforeAttrValue t n)
    else eat (AttrName t (snoc n (nul (alow_c c))))
  (* 13.2.5.34: [n] = [] when no attribute is pending *) | AfterAttrName t n =>
    let t' := match n with [] => t | _ => add_attr t n [] end in
    if ws c then eat s
    else if c =? 47 then eat (SelfClosing t')
    else if (c =? 61) && match n with [] => false | _ => true end then eat (BeforeAttrValue t n)
    else if c =? 62 then Emit t' false
    else Again [] (AttrName t' [])
  (* 13.2.5.35 *) | BeforeAttrValue t n =>
    if ws c then eat s
    else if c =? 34 then eat (AttrValDQ t n [])
    else if c =? 39 then eat (AttrValSQ t n [])
    else if c =? 62 then Emit (add_attr t n []) false
    else Again [] (AttrValUnq t n [])
  (* 13.2.5.36 *) | AttrValDQ t n v =>
    if c =? 34 then eat (AfterAttrValQuoted (add_attr t n v))
    else if c =? 38 then
      match charref true rest with
      | Some (w, k) => Eat [] k (AttrValDQ t n (v ++ w)%list)
      | None => eat (AttrValDQ t n (snoc v c))
      end
    else eat (AttrValDQ t n (snoc v (nul c)))
  (* 13.2.5.37 *) | AttrValSQ t n v =>
    if c =? 39 then eat (AfterAttrValQuoted (add_attr t n v))
    else if c =? 38 then
      match charref true rest with
      | Some (w, k) => Eat [] k (AttrValSQ t n (v ++ w)%list)
      | None => eat (AttrValSQ t n (snoc v c))
      end
    else eat (AttrValSQ t n (snoc v (nul c)))
  (* 13.2.5.38 *) | AttrValUnq t n v =>
    if ws c then eat (BeforeAttrName (add_attr t n v))
    else if c =? 38 then
      match charref true rest with
      | Some (w, k) => Eat [] k (AttrValUnq t n (v ++ w)%list)
      | None => eat (AttrValUnq t n (snoc v c))
      end
    else if c =? 62 then Emit (add_attr t n v) false
    else eat (AttrValUnq t n (snoc v (nul c)))
  (* 13.2.5.39 *) | AfterAttrValQuoted t =>
    if ws c then eat (BeforeAttrName t)
    else if c =? 47 then eat (SelfClosing t)
    else if c =? 62 then Emit t false
    else Again [] (BeforeAttrName t)
  (* 13.2.5.40 *) | SelfClosing t => if c =? 62 then Emit t true else Again [] (BeforeAttrName t)
  (* 13.2.5.41 *) | BogusComment d =>
    if c =? 62 then Eat [TComment d] O Data else eat (BogusComment (snoc d (nul c)))
  (* 13.2.5.42 *) | MarkupDecl =>
    if starts [45; 45] (c :: rest) then Eat [] 1%nat CommentStart
    else if str_eqb (alow (firstn 7 (c :: rest))) (u "doctype") then Eat [] 6%nat Doctype
    else if starts (u "[CDATA[") (c :: rest) then Eat [] 6%nat (BogusComment (u "[CDATA["))
    else Again [] (BogusComment [])
  (* 13.2.5.43 *) | CommentStart =>
    if c =? 45 then eat CommentStartDash
    else if c =? 62 then Eat [TComment []] O Data
    else Again [] (Comment [])
  (* 13.2.5.44 *) | CommentStartDash =>
    if c =? 45 then eat (CommentEnd [])
    else if c =? 62 then Eat [TComment []] O Data
    else Again [] (Comment [45])
  (* 13.2.5.45 *) | Comment d =>
    if c =? 60 then eat (CommentLT (snoc d c))
    else if c =? 45 then eat (CommentEndDash d)
    else eat (Comment (snoc d (nul c)))
  (* 13.2.5.46 *) | CommentLT d =>
    if c =? 33 then eat (CommentLTBang (snoc d c))
    else if c =? 60 then eat (CommentLT (snoc d c))
    else Again [] (Comment d)
  (* 13.2.5.47 *) | CommentLTBang d => if c =? 45 then eat (CommentLTBangDash d) else Again [] (Comment d)
  (* 13.2.5.48 *) | CommentLTBangDash d =>
    if c =? 45 then eat (CommentLTBangDashDash d) else Again [] (CommentEndDash d)
  (* 13.2.5.49 *) | CommentLTBangDashDash d => Again [] (CommentEnd d)
  (* 13.2.5.50 *) | CommentEndDash d => if c =? 45 then eat (CommentEnd d) else Again [] (Comment (snoc d 45))
  (* 13.2.5.51 *) | CommentEnd d =>
    if c =? 62 then Eat [TComment d] O Data
    else if c =? 33 then eat (CommentEndBang d)
    else if c =? 45 then eat (CommentEnd (snoc d 45))
    else Again [] (Comment (d ++ [45; 45])%list)
  (* 13.2.5.52 *) | CommentEndBang d =>
    if c =? 45 then eat (CommentEndDash (d ++ [45; 45; 33])%list)
    else if c =? 62 then Eat [TComment d] O Data
    else Again [] (Comment (d ++ [45; 45; 33])%list)
  (* 13.2.5.53 *) | Doctype =>
    if ws c then eat BeforeDoctypeName else Again [] BeforeDoctypeName
  (* 13.2.5.54 *) | BeforeDoctypeName =>
    if ws c then eat s
    else if c =? 62 then Eat [TDoctype None None None true] O Data
    else eat (DoctypeName [nul (alow_c c)])
  (* 13.2.5.55 *) | DoctypeName n =>
    if ws c then eat (AfterDoctypeName (Dt (Some n) None None))
    else if c =? 62 then Eat [TDoctype (Some n) None None false] O Data
    else eat (DoctypeName (snoc n (nul (alow_c c))))
  (* 13.2.5.56 *) | AfterDoctypeName d =>
    if ws c then eat s
    else if c =? 62 then Eat [TDoctype (d_name d) (d_pub d) (d_sys d) false] O Data
    else if str_eqb (alow (firstn 6 (c :: rest))) (u "public") then Eat [] 5%nat (AfterPubKw d)
    else if str_eqb (alow (firstn 6 (c :: rest))) (u "system") then Eat [] 5%nat (AfterSysKw d)
    else Again [] (BogusDoctype d true)
  (* 13.2.5.57 *) | AfterPubKw d =>
    if ws c then eat (BeforePubId d)
    else if c =? 34 then eat (PubDQ d [])
    else if c =? 39 then eat (PubSQ d [])
    else if c =? 62 then Eat [TDoctype (d_name d) (d_pub d) (d_sys d) true] O Data
    else Again [] (BogusDoctype d true)
  (* 13.2.5.58 *) | BeforePubId d =>
    if ws c then eat s
    else if c =? 34 then eat (PubDQ d [])
    else if c =? 39 then eat (PubSQ d [])
    else if c =? 62 then Eat [TDoctype (d_name d) (d_pub d) (d_sys d) true] O Data
    else Again [] (BogusDoctype d true)
  (* 13.2.5.59 *) | PubDQ d v =>
    if c =? 34 then eat (AfterPubId (Dt (d_name d) (Some v) (d_sys d)))
    else if c =? 62 then Eat [TDoctype (d_name d) (Some v) (d_sys d) true] O Data
    else eat (PubDQ d (snoc v (nul c)))
  (* 13.2.5.60 *) | PubSQ d v =>
    if c =? 39 then eat (AfterPubId (Dt (d_name d) (Some v) (d_sys d)))
    else if c =? 62 then Eat [TDoctype (d_name d) (Some v) (d_sys d) true] O Data
    else eat (PubSQ d (snoc v (nul c)))
  (* 13.2.5.61 *) | AfterPubId d =>
    if ws c then eat (BetweenPubSys d)
    else if c =? 62 then Eat [TDoctype (d_name d) (d_pub d) (d_sys d) false] O Data
    else if c =? 34 then eat (SysDQ d [])
    else if c =? 39 then eat (SysSQ d [])
    else Again [] (BogusDoctype d true)
  (* 13.2.5.62 *) | BetweenPubSys d =>
    if ws c then eat s
    else if c =? 62 then Eat [TDoctype (d_name d) (d_pub d) (d_sys d) false] O Data
    else if c =? 34 then eat (SysDQ d [])
    else if c =? 39 then eat (SysSQ d [])
    else Again [] (BogusDoctype d true)
  (* 13.2.5.63 *) | AfterSysKw d =>
    if ws c then eat (BeforeSysId d)
    else if c =? 34 then eat (SysDQ d [])
    else if c =? 39 then eat (SysSQ d [])
    else if c =? 62 then Eat [TDoctype (d_name d) (d_pub d) (d_sys d) true] O Data
    else Again [] (BogusDoctype d true)
  (* 13.2.5.64 *) | BeforeSysId d =>
    if ws c then eat s
    else if c =? 34 then eat (SysDQ d [])
    else if c =? 39 then eat (SysSQ d [])
    else if c =? 62 then Eat [TDoctype (d_name d) (d_pub d) (d_sys d) true] O Data
    else Again [] (BogusDoctype d true)
  (* 13.2.5.65 *) | SysDQ d v =>
    if c =? 34 then eat (AfterSysId (Dt (d_name d) (d_pub d) (Some v)))
    else if c =? 62 then Eat [TDoctype (d_name d) (d_pub d) (Some v) true] O Data
    else eat (SysDQ d (snoc v (nul c)))
  (* 13.2.5.66 *) | SysSQ d v =>
    if c =? 39 then eat (AfterSysId (Dt (d_name d) (d_pub d) (Some v)))
    else if c =? 62 then Eat [TDoctype (d_name d) (d_pub d) (Some v) true] O Data
    else eat (SysSQ d (snoc v (nul c)))
  (* 13.2.5.67 *) | AfterSysId d =>
    if ws c then eat s
    else if c =? 62 then Eat [TDoctype (d_name d) (d_pub d) (d_sys d) false] O Data
    else Again [] (BogusDoctype d false)
  (* 13.2.5.68 *) | BogusDoctype d q =>
    if c =? 62 then Eat [TDoctype (d_name d) (d_pub d) (d_sys d) q] O Data else eat s
  end.

(* Tokens emitted at the end of the input. *)
Definition eof (s : state) : list token :=
  match s with
  | TagOpen => [TChar 60]
  | EndTagOpen => [TChar 60; TChar 47]
  | RawLT _ => [TChar 60]
  | RawEndOpen _ => [TChar 60; TChar 47]
  | RawEndName _ buf => TChar 60 :: TChar 47 :: chars buf
  | BogusComment d => [TComment d]
  | MarkupDecl => [TComment []]
  | CommentStart | CommentStartDash => [TComment []]
  | Comment d | CommentLT d | CommentLTBang d | CommentLTBangDash d | CommentLTBangDashDash d
  | CommentEndDash d | CommentEnd d | CommentEndBang d => [TComment d]
  | Doctype | BeforeDoctypeName => [TDoctype None None None true]
  | DoctypeName n => [TDoctype (Some n) None None true]
  | AfterDoctypeName d | AfterPubKw d | BeforePubId d | AfterPubId d | BetweenPubSys d
  | AfterSysKw d | BeforeSysId d | AfterSysId d => [TDoctype (d_name d) (d_pub d) (d_sys d) true]
  | PubDQ d v | PubSQ d v => [TDoctype (d_name d) (Some v) (d_sys d) true]
  | SysDQ d v | SysSQ d v => [TDoctype (d_name d) (d_pub d) (Some v) true]
  | BogusDoctype d q => [TDoctype (d_name d) (d_pub d) (d_sys d) q]
  | _ => []
  end.

Section Run.
Variable scripting : bool.

(* Follow "reconsume" transitions; the longest chain has length 5 (lemma [resolve_enough]). *)
Fixpoint resolve (k : nat) (last : str) (s : state) (c : N) (rest : str) : list token * nat * state * str :=
  match step last s c rest with
  | Eat e n s' => (e, n, s', last)
  | Emit t sc =>
    if t_end t then ([TEnd (t_name t)], O, Data, last)
    else ([TStart (t_name t) (t_attrs t) sc], O, switch scripting (t_name t), t_name t)
  | Again e s' =>
    match k with
    | O => (e, O, s', last)
    | S k' => let '(e', n, s'', last') := resolve k' last s' c rest in ((e ++ e')%list, n, s'', last')
    end
  end.

(* [skip]: characters already consumed by lookahead *)
Fixpoint run (skip : nat) (last : str) (s : state) (input : str) : list token :=
  match input with
  | [] => eof s
  | c :: rest =>
    match skip with
    | S k => run k last s rest
    | O => let '(e, n, s', last') := resolve 6 last s c rest in (e ++ run n last' s' rest)%list
    end
  end.
End Run.

(* 13.2.3.5 preprocessing the input stream: CR LF -> LF, CR -> LF *)
Fixpoint newlines (s : str) : str :=
  match s with
  | 13 :: t => 10 :: match t with 10 :: t' => newlines t' | _ => newlines t end
  | c :: t => c :: newlines t
  | [] => []
  end.

Definition tokenize (scripting : bool) (html : str) : list token :=
  run scripting O [] Data (newlines html).


