(* PROPERTY C21: inline style sanitizing.  Read with CssSpec.v (CSS tokenizer, declarations, dangerous functions) and
   CssModel.v (the code).  [sanitize_inline_style py allowed value tag p]: the style attribute [value] of element [tag] cleaned with
   allowed_css_properties [allowed] and url_policy [p]; Keep out: the new value, Drop: the attribute goes. *)
From Verif Require Import Str StrFacts UrlSpec UrlProofs UrlModel CssSpec CssModel CssProofs CssCommentProofs CssFinal.
Open Scope N_scope.

Definition py0 : urllib := Urllib (fun _ => true) (fun _ => true).
Definition img_rule : url_rule := UrlRule true None [u "https"] None (Some HAllow) None None.
Definition css_policy : url_policy := UrlPolicy HAllow true [((u "*", u "style:background-image"), img_rule); ((u "*", u "style:content"), img_rule)] None None.

(* every declaration a CSS parser finds in the output has an allowlisted name.  [plain_policy]: rules with valid schemes and
   handling "allow", and a url_filter, if any, that adds no ';' *)
Theorem C21_declared_properties_are_allowed : forall py allowed value tag p out,
  (forall pol, p = Some pol ->
     (forall t k r, In (t, k, r) (allow_rules pol) -> (forall s, In s (allowed_schemes r) -> valid_scheme s) /\ effective_handling pol r = HAllow) /\
     (forall f tag attr v w, url_filter pol = Some f -> f tag attr v = Some w -> ~ In 59 v -> ~ In 59 w)) ->
  sanitize_inline_style py allowed value tag p = Keep out -> forall n, In n (declared out) -> In n allowed.
Proof. exact names_plain_policy. Qed.
Print Assumptions C21_declared_properties_are_allowed.
(* no escapes at all *)
Theorem C21_no_backslash : forall py allowed value tag p out, sanitize_inline_style py allowed value tag p = Keep out -> ~ In 92 out.
Proof. exact output_no_backslash. Qed.
Print Assumptions C21_no_backslash.
Example C21_names_example :
  sanitize_inline_style py0 [u "color"; u "margin"; u "background-image"] (u "COLOR : red; position:fixed;;margin:0 /*;*/ 1px; margin: (1; color:x;background-image: url( a.png ) , none") (u "P") (Some css_policy)
  = Keep (u "color: red; margin: (1; color: x; background-image: url('a.png') , none") /\
  declared (u "color: red; margin: (1; color: x; background-image: url('a.png') , none") = [u "color"; u "margin"; u "color"; u "background-image"] /\
  (forall pol, Some css_policy = Some pol ->
     (forall t k r, In (t, k, r) (allow_rules pol) -> (forall s, In s (allowed_schemes r) -> valid_scheme s) /\ effective_handling pol r = HAllow) /\
     (forall f tag attr v w, url_filter pol = Some f -> f tag attr v = Some w -> ~ In 59 v -> ~ In 59 w)).
Proof.
  split; [vm_compute; reflexivity|]. split; [vm_compute; reflexivity|]. intros pol E. assert (pol = css_policy) as -> by congruence. split.
  - intros t k r [H|[H|[]]]; (assert (r = img_rule) as -> by congruence); (split; [|reflexivity]); (intros s [<-|[]]); exists 104, (u "ttps"); repeat split.
  - intros f tag attr v w H. discriminate H.
Qed.

(* no resource-loading or dynamic function survives, and every url() is a quoted URL that the matching rule accepted -- for style
   values without a CSS comment opener and without U+0130 *)
Theorem C21_functions_are_harmless_partial : forall py allowed value tag p out,
  contains (u "/*") value = false -> ~ In 304 value ->
  sanitize_inline_style py allowed value tag p = Keep out -> forall pre tk post, css_tokens out = (pre ++ tk :: post)%list ->
  match tk with
  | CUrl _ | CBadUrl => False
  | CFun n => ~ dangerous_function n /\
      (alow n = u "url" -> exists pol prop t rule raw s post', p = Some pol /\ In prop allowed /\ (t = lower tag \/ t = u "*") /\
         In (t, (u "style:" ++ prop)%list, rule) (allow_rules pol) /\
         sanitize_url_value py rule raw (lower tag) (u "style:" ++ prop)%list (effective_handling pol rule) (effective_allow_relative pol rule)
           (effective_proxy pol rule) (url_filter pol) = Keep s /\ post = CStr s :: post')
  | _ => True
  end.
Proof. exact functions_with_rules. Qed.
Print Assumptions C21_functions_are_harmless_partial.
Example C21_functions_example :
  sanitize_inline_style py0 [u "background-image"; u "content"] (u "background-image: URL( ""https://e.com/x;y"" ); content: 'a' rgb(1) url(b)") (u "p") (Some css_policy)
  = Keep (u "content: 'a' rgb(1) url('b')") /\
  css_tokens (u "content: 'a' rgb(1) url('b')") =
    [CIdent (u "content"); CColon; CWs; CStr (u "a"); CWs; CFun (u "rgb"); CNum; CDelim 41; CWs; CFun (u "url"); CStr (u "b"); CDelim 41] /\
  sanitize_inline_style py0 [u "background-image"; u "content"] (u "background-image: url(javascript:x); content: -webkit-image-set(x)") (u "p") (Some css_policy) = Drop.
Proof. vm_compute. repeat split. Qed.

(* the same with comments but without quotes, when no URL rules are given *)
Theorem C21_functions_with_comments_partial : forall py allowed value tag out, ~ In 34 value -> ~ In 39 value ->
  sanitize_inline_style py allowed value tag None = Keep out -> forall tk, In tk (css_tokens out) ->
  match tk with CUrl _ | CBadUrl => False | CFun n => ~ dangerous_function n /\ alow n <> u "url" | _ => True end.
Proof.
  intros py allowed value tag out H1 H2 H tk Htk. destruct (functions_noquote py allowed value tag out H1 H2 H tk Htk) as [H3 H4].
  destruct tk as [ |n|n|n|n|n| |n| | |n| | | | | |n]; try exact I; [exact (H4 n eq_refl)|exact (H3 I)|exact (H3 I)].
Qed.
Print Assumptions C21_functions_with_comments_partial.
Example C21_comments_example :
  sanitize_inline_style py0 [u "color"] (u "color: rgb(1/*x*/,2) /* url( */; color: u/**/rl(//e); color: a /* b") (u "p") None = Keep (u "color: rgb(1/*x*/,2) /* url( */") /\
  css_tokens (u "color: rgb(1/*x*/,2) /* url( */") = [CIdent (u "color"); CColon; CWs; CFun (u "rgb"); CNum; CDelim 44; CNum; CDelim 41; CWs].
Proof. vm_compute. split; reflexivity. Qed.

(* REFUTED in general.  (1) "/*" inside a string is not a comment, but the check skips up to the next "*/": without any URL
   rule a url() that a browser loads is kept. *)
Theorem C21_comment_in_string_refuted : exists value out, sanitize_inline_style py0 [u "list-style"] value (u "p") None = Keep out /\ In (CUrl (u "//evil/x*/y")) (css_tokens out).
Proof. exists (u "list-style: '/*' url(//evil/x*/y)"), (u "list-style: '/*' url(//evil/x*/y)"). split; [vm_compute; reflexivity|]. vm_compute. tauto. Qed.
Print Assumptions C21_comment_in_string_refuted.
(* (2) U+0130 lower-cases to two characters; offsets into the lowered value are used on the original, so a url() that no rule
   has seen is kept next to one that was cleaned.  The rule only allows relative and https URLs. *)
Theorem C21_dotted_I_refuted : exists value out, sanitize_inline_style py0 [u "content"] value (u "p") (Some css_policy) = Keep out /\ In (CUrl (u "//evil/a")) (css_tokens out) /\
  sanitize_url_value py0 img_rule (u "//evil/a") (u "p") (u "style:content") HAllow true None None = Drop.
Proof.
  exists (u "content:'" ++ repeat 304 14 ++ u "' url(//evil/a) xxxxok)")%list, (u "content: '" ++ repeat 304 14 ++ u "' url(//evil/a) url('ok')")%list.
  split; [vm_compute; reflexivity|]. split; vm_compute; tauto.
Qed.
Print Assumptions C21_dotted_I_refuted.
