(* PROPERTIES C12-C20: URL cleaning.  Read with UrlSpec.v (how a browser reads URLs, srcset, lists, refresh) and
   UrlModel.v (the code).  [sanitize_url_value py rule value tag attr h ar px f]: one URL cleaned under [rule] with handling [h],
   allow_relative [ar], proxy [px] and url_filter [f]; [py]: the parts of urllib that are left arbitrary. *)
From Verif Require Import Str StrFacts UrlSpec PercentSpec JsUrlProofs UrlModel UrlProofs UrlHostProofs UrlListProofs.
Open Scope N_scope.

Definition py0 : urllib := Urllib (fun _ => true) (fun _ => true).
Definition web : url_rule := UrlRule true (Some (u "https")) [u "http"; u "https"] None (Some HAllow) None None.
Definition site : url_rule := UrlRule true (Some (u "https")) [u "http"; u "https"] (Some [u "example.com"; u "127.0.0.1"]) (Some HAllow) None None.
Definition pol (r : url_rule) : url_policy := UrlPolicy HAllow true [((u "a", u "href"), r)] None None.
Lemma web_valid : forall s, In s (allowed_schemes web) -> valid_scheme s.
Proof. intros s [<-|[<-|[]]]; [exists 104, (u "ttp")|exists 104, (u "ttps")]; repeat split. Qed.

(* C12 *)
Theorem C12_cleaned_url_scheme_is_allowed : forall py rule value tag attr ar px f out s,
  (forall s, In s (allowed_schemes rule) -> valid_scheme s) ->
  sanitize_url_value py rule value tag attr HAllow ar px f = Keep out ->
  browser_scheme out = Some s -> In s (allowed_schemes rule).
Proof. exact c12. Qed.
Print Assumptions C12_cleaned_url_scheme_is_allowed.
(* the public JustHTML.clean_url_value, whose result is percent-encoded *)
Theorem C12_clean_url_value : forall py value r out, (forall s, In s (allowed_schemes r) -> valid_scheme s) ->
  r_handling r = None \/ r_handling r = Some HAllow -> unicode value -> clean_url_value py value r = Keep out ->
  (forall s, browser_scheme out = Some s -> In s (allowed_schemes r)) /\ ~ protocol_relative out.
Proof. exact clean_url_safe. Qed.
Print Assumptions C12_clean_url_value.
Example C12_example_keeps : clean_url_value py0 (u " HTTPS://e.com/a b?x=&amp;y ") web = Keep (u "HTTPS://e.com/a%20b?x=&y").
Proof. vm_compute. reflexivity. Qed.
Example C12_example_drops : map (fun v => clean_url_value py0 v web) [u "java&#10;script:x"; u "&#1;javascript:x"; u "data:text/html,x"; u "\\e.com"]
  = [Drop; Drop; Drop; Drop].
Proof. vm_compute. reflexivity. Qed.

(* C13.  Both paths of the default policy: the parse-time one and the general one. *)
Theorem C13_default_href : forall py value out,
  parse_time_url py default_url_policy default_a_href (u "a") (u "href") value = Keep out \/
  sanitize_sink py default_url_policy default_a_href (u "a") (u "href") KUrl value = Keep out ->
  (forall s, browser_scheme out = Some s -> In s [u "http"; u "https"; u "mailto"; u "tel"]) /\ ~ protocol_relative out.
Proof. intros py value out H. exact (parse_time_safe py default_url_policy default_a_href (u "a") (u "href") value out default_a_valid eq_refl H). Qed.
Print Assumptions C13_default_href.
(* images are never remote: neither an absolute URL nor a protocol-relative one *)
Theorem C13_default_img_src : forall py value out,
  parse_time_url py default_url_policy default_img_src (u "img") (u "src") value = Keep out \/
  sanitize_sink py default_url_policy default_img_src (u "img") (u "src") KUrl value = Keep out ->
  browser_scheme out = None /\ ~ protocol_relative out.
Proof.
  intros py value out H. destruct (parse_time_safe py default_url_policy default_img_src (u "img") (u "src") value out default_img_valid eq_refl H) as [H1 H2].
  split; [|exact H2]. destruct (browser_scheme out) as [s|]; [destruct (H1 s eq_refl)|reflexivity].
Qed.
Print Assumptions C13_default_img_src.
Example C13_example :
  map (parse_time_url py0 default_url_policy default_a_href (u "a") (u "href")) [u "mailto:x@y"; u "/p?q=1:2"; u "jav	ascript:x"; u "vbscript:x"]
  = [Keep (u "mailto:x@y"); Keep (u "/p?q=1:2"); Drop; Drop] /\
  parse_time_url py0 default_url_policy default_img_src (u "img") (u "src") (u "a/b.png") = Keep (u "a/b.png").
Proof. vm_compute. split; reflexivity. Qed.

(* C14 *)
Theorem C14_output_never_protocol_relative : forall py rule value tag attr ar px f out,
  (forall s, In s (allowed_schemes rule) -> valid_scheme s) ->
  sanitize_url_value py rule value tag attr HAllow ar px f = Keep out -> ~ protocol_relative out.
Proof. exact c14. Qed.
Print Assumptions C14_output_never_protocol_relative.
Theorem C14_protocol_relative_is_resolved : forall py rule value tag attr ar px out,
  (forall s, In s (allowed_schemes rule) -> valid_scheme s) -> protocol_relative value ->
  sanitize_url_value py rule value tag attr HAllow ar px None = Keep out ->
  exists r rest, resolve_protocol_relative rule = Some r /\ In (lower r) (allowed_schemes rule) /\ out = (lower r ++ 58 :: 47 :: 47 :: rest)%list.
Proof. exact c14_resolved. Qed.
Print Assumptions C14_protocol_relative_is_resolved.
Example C14_example : protocol_relative (u " //e.com/x") /\ sanitize_url_value py0 web (u " //e.com/x") (u "a") (u "href") HAllow true None None = Keep (u "https://e.com/x").
Proof. split; [split; [reflexivity|exists 47, 47, (u "e.com/x"); repeat split]|vm_compute; reflexivity]. Qed.

(* C15.  [h]: the host as a browser finds it in the URL *)
Theorem C15_host_allowlist : forall py rule value tag attr ar px f out hosts h,
  (forall s, In s (allowed_schemes rule) -> valid_scheme s) -> allowed_hosts rule = Some hosts ->
  sanitize_url_value py rule value tag attr HAllow ar px f = Keep out -> browser_host out = Some h ->
  In (alow h) hosts /\ h <> [] /\ is_ascii h = true /\ ~ In 37 h /\ (~ In 58 h -> ipv4_canonical h).
Proof. exact c15. Qed.
Print Assumptions C15_host_allowlist.
Example C15_example :
  map (fun v => sanitize_url_value py0 site v (u "a") (u "href") HAllow true None None)
    [u "https://Example.com:8080/x"; u "https://u@example.com"; u "https://example.com@evil.com/"; u "https://evil.com\@example.com"; u "https://0x7f.1/"; u "//127.0.0.1/"; u "https:/evil.com"]
  = [Keep (u "https://Example.com:8080/x"); Keep (u "https://u@example.com"); Drop; Drop; Drop; Keep (u "https://127.0.0.1/"); Drop] /\
  browser_host (u "https://Example.com:8080/x") = Some (u "Example.com").
Proof. vm_compute. split; reflexivity. Qed.

(* C16 *)
Theorem C16_strip_never_returns : forall py rule value tag attr ar px f, sanitize_url_value py rule value tag attr HStrip ar px f = Drop.
Proof. exact c16_strip. Qed.
Print Assumptions C16_strip_never_returns.
Theorem C16_proxy_without_proxy : forall py rule value tag attr ar f, sanitize_url_value py rule value tag attr HProxy ar None f = Drop.
Proof. exact c16_no_proxy. Qed.
Print Assumptions C16_proxy_without_proxy.
(* the parameter decodes to the URL that handling 'allow' would have returned, and cannot break out of the parameter *)
Theorem C16_proxy_shape : forall py rule value tag attr ar px f out, sanitize_url_value py rule value tag attr HProxy ar px f = Keep out ->
  exists p x a b, px = Some p /\ sanitize_url_value py rule value tag attr HAllow ar px f = Keep x /\
    out = (px_url p ++ (if mem 63 (px_url p) then [38] else [63]) ++ a ++ [61] ++ b)%list /\
    (unicode (px_param p) -> exists bytes, percent_decode a = Some bytes /\ utf8_decode bytes = Some (px_param p)) /\
    (unicode x -> (exists bytes, percent_decode b = Some bytes /\ utf8_decode bytes = Some x) /\ forall c, In c b -> is_alnum_ascii c = true \/ In c (u "_.-~%")).
Proof. exact c16_final. Qed.
Print Assumptions C16_proxy_shape.
Example C16_example : sanitize_url_value py0 web (u "https://e.com/?a=b&c") (u "img") (u "src") HProxy true (Some (UrlProxy (u "/p?k=1") (u "url"))) None
  = Keep (u "/p?k=1&url=https%3A%2F%2Fe.com%2F%3Fa%3Db%26c").
Proof. vm_compute. reflexivity. Qed.

(* C17 *)
Theorem C17_allow_fragment_false : forall py rule value tag attr ar px f out,
  (forall s, In s (allowed_schemes rule) -> valid_scheme s) -> allow_fragment rule = false ->
  sanitize_url_value py rule value tag attr HAllow ar px f = Keep out -> ~ fragment_only out.
Proof. exact c17_fragment. Qed.
Print Assumptions C17_allow_fragment_false.
(* missing: results containing a space, for which the claim is false (next theorem) *)
Theorem C17_allow_relative_false_partial : forall py rule value tag attr px f out,
  (forall s, In s (allowed_schemes rule) -> valid_scheme s) ->
  sanitize_url_value py rule value tag attr HAllow false px f = Keep out -> ~ In 32 out ->
  (exists s, browser_scheme out = Some s /\ In s (allowed_schemes rule)) \/ fragment_only out.
Proof. exact c17_relative. Qed.
Print Assumptions C17_allow_relative_false_partial.
Theorem C17_allow_relative_refuted : exists value out,
  sanitize_url_value py0 web value (u "a") (u "href") HAllow false None None = Keep out /\ browser_scheme out = None /\ ~ fragment_only out.
Proof. exists (u "h ttps://x"), (u "h ttps://x"). split; [vm_compute; reflexivity|]. split; [vm_compute; reflexivity|]. intros (t & E). vm_compute in E. discriminate E. Qed.
Print Assumptions C17_allow_relative_refuted.
Example C17_example : map (fun v => sanitize_url_value py0 web v (u "a") (u "href") HAllow false None None) [u "/x"; u "?q"; u "https://e/"; u "#f"; u "http:x"]
  = [Drop; Drop; Keep (u "https://e/"); Keep (u "#f"); Drop].
Proof. vm_compute. reflexivity. Qed.

(* C18.  The candidates a browser extracts are, in order, the cleaned tokens of the (filtered) input, none left out. *)
Theorem C18_srcset : forall py p r tag attr value out, (forall s, In s (allowed_schemes r) -> valid_scheme s) ->
  effective_handling p r = HAllow -> sanitize_srcset py p r tag attr value = Keep out ->
  exists v, list_filter p tag attr value = Some v /\
    Forall2 (fun tok url => sanitize_url_value py r tok tag attr HAllow (effective_allow_relative p r) (effective_proxy p r) None = Keep url)
      (map (take_while (fun c => negb (is_space c))) (filter (fun s => negb (match s with [] => true | _ => false end)) (map strip (split_char 44 (strip v)))))
      (srcset_urls out).
Proof. exact c18_srcset. Qed.
Print Assumptions C18_srcset.
Theorem C18_space_list : forall py p r tag attr value out, (forall s, In s (allowed_schemes r) -> valid_scheme s) ->
  effective_handling p r = HAllow -> sanitize_space_list py p r tag attr value = Keep out ->
  exists v, list_filter p tag attr value = Some v /\
    Forall2 (fun tok url => sanitize_url_value py r tok tag attr HAllow (effective_allow_relative p r) (effective_proxy p r) None = Keep url)
      (split_ws (strip v)) (space_urls out).
Proof. intros py p r tag attr value out Hv Hh. exact (c18_list py p r tag attr value split_ws out Hv Hh split_ws_no). Qed.
Print Assumptions C18_space_list.
Theorem C18_comma_or_space_list : forall py p r tag attr value out, (forall s, In s (allowed_schemes r) -> valid_scheme s) ->
  effective_handling p r = HAllow -> sanitize_comma_or_space_list py p r tag attr value = Keep out ->
  exists v, list_filter p tag attr value = Some v /\
    Forall2 (fun tok url => sanitize_url_value py r tok tag attr HAllow (effective_allow_relative p r) (effective_proxy p r) None = Keep url)
      (split_by_go (fun c => is_space c || (c =? 44)) [] (strip v)) (space_urls out).
Proof. intros py p r tag attr value out Hv Hh. exact (c18_list py p r tag attr value _ out Hv Hh split_comma_no). Qed.
Print Assumptions C18_comma_or_space_list.
Example C18_example :
  sanitize_srcset py0 (pol web) web (u "img") (u "srcset") (u "a.png 1x,, //e.com/b.png 2X , c.png") = Keep (u "a.png 1x, https://e.com/b.png 2x, c.png") /\
  srcset_urls (u "a.png 1x, https://e.com/b.png 2x, c.png") = [u "a.png"; u "https://e.com/b.png"; u "c.png"] /\
  sanitize_srcset py0 (pol web) web (u "img") (u "srcset") (u "a.png 1x, javascript:x 2x") = Drop /\
  sanitize_space_list py0 (pol web) web (u "a") (u "ping") (u " https://a/  /b ") = Keep (u "https://a/ /b").
Proof. vm_compute. repeat split. Qed.

(* C19.  Missing: values whose part before ';' is not a plain number, and URLs starting with a quote character; there the
   claim is false (next two theorems). *)
Theorem C19_meta_refresh_partial : forall py p r tag attr value out, (forall s, In s (allowed_schemes r) -> valid_scheme s) ->
  effective_handling p r = HAllow ->
  strip (part_before 59 value) <> [] -> forallb (fun c => is_digit_ascii c || (c =? 46)) (strip (part_before 59 value)) = true ->
  sanitize_meta_refresh py p r tag attr value = Keep out ->
  exists candidate url, sanitize_simple_sink py p r tag attr candidate = Keep url /\
    ((exists t, url = 34 :: t \/ url = 39 :: t) \/ refresh_url out = Some url).
Proof. exact c19. Qed.
Print Assumptions C19_meta_refresh_partial.
Definition only_ok : url_rule := UrlRule true (Some (u "https")) [u "https"] (Some [u "ok"]) (Some HAllow) (Some true) None.
Theorem C19_meta_refresh_prefix_refuted : exists value out url,
  sanitize_meta_refresh py0 (pol only_ok) only_ok (u "meta") (u "content") value = Keep out /\
  refresh_url out = Some url /\ browser_host url = Some (u "evil") /\
  forall candidate, sanitize_simple_sink py0 (pol only_ok) only_ok (u "meta") (u "content") candidate <> Keep url.
Proof.
  exists (u "0,url=https://evil/;url=https://ok/"), (u "0,url=https://evil/;url=https://ok/"), (u "https://evil/;url=https://ok/").
  split; [vm_compute; reflexivity|]. split; [vm_compute; reflexivity|]. split; [vm_compute; reflexivity|].
  intros cand H. apply (c15 _ _ _ _ _ _ _ _ _ [u "ok"] (u "evil")) in H; [|intros s [<-|[]]; exists 104, (u "ttps"); repeat split|reflexivity|vm_compute; reflexivity].
  destruct H as [H _]. vm_compute in H. destruct H as [H|[]]. discriminate H.
Qed.
Print Assumptions C19_meta_refresh_prefix_refuted.
Theorem C19_meta_refresh_quote_refuted : exists value out url,
  sanitize_meta_refresh py0 (pol only_ok) only_ok (u "meta") (u "content") value = Keep out /\
  refresh_url out = Some url /\ browser_host url = Some (u "evil").
Proof.
  exists (u "0;url=""'https://evil/"), (u "0;url='https://evil/"), (u "https://evil/"). split; [vm_compute; reflexivity|]. split; vm_compute; reflexivity.
Qed.
Print Assumptions C19_meta_refresh_quote_refuted.
Example C19_example : sanitize_meta_refresh py0 (pol web) web (u "meta") (u "content") (u " 5 ; URL = '//e.com/x'") = Keep (u "5;url=https://e.com/x") /\
  refresh_url (u "5;url=https://e.com/x") = Some (u "https://e.com/x").
Proof. vm_compute. split; reflexivity. Qed.

(* C20.  Missing: values with a backslash, and "//"-like values containing spaces, on which the two paths differ (next theorem). *)
Theorem C20_fast_path_agrees_partial : forall py rule value tag attr ar px o, allowed_hosts rule = None -> ~ In 92 value ->
  (starts (u "//") (normalize_url (strip value)) = true -> ~ In 32 (strip value)) ->
  url_fast value rule ar = Some o -> sanitize_url_value py rule value tag attr HAllow ar px None = o.
Proof. exact c20. Qed.
Print Assumptions C20_fast_path_agrees_partial.
Theorem C20_fast_path_agrees_refuted : exists v1 v2 o1 o2,
  url_fast v1 web true = Some (Keep o1) /\ sanitize_url_value py0 web v1 (u "a") (u "href") HAllow true None None = Drop /\
  url_fast v2 web true = Some (Keep o2) /\ sanitize_url_value py0 web v2 (u "a") (u "href") HAllow true None None <> Keep o2.
Proof.
  exists (u "https://x\y"), (u "/ /x"), (u "https://x\y"), (u "/ /x"). split; [vm_compute; reflexivity|]. split; [vm_compute; reflexivity|]. split; [vm_compute; reflexivity|]. vm_compute. intros H. discriminate H.
Qed.
Print Assumptions C20_fast_path_agrees_refuted.
(* on every value the fast path gives the guarantees of C12 and C14 *)
Theorem C20_fast_path_safe : forall rule value ar out, (forall s, In s (allowed_schemes rule) -> valid_scheme s) ->
  url_fast value rule ar = Some (Keep out) ->
  (forall s, browser_scheme out = Some s -> In s (allowed_schemes rule)) /\ ~ protocol_relative out.
Proof. exact fast_safe. Qed.
Print Assumptions C20_fast_path_safe.
Example C20_example : map (fun v => url_fast v web true) [u "https://e.com/x"; u "//e.com"; u "javascript:1"; u "a b"] =
  [Some (Keep (u "https://e.com/x")); Some (Keep (u "https://e.com")); Some Drop; Some (Keep (u "a b"))].
Proof. vm_compute. reflexivity. Qed.
