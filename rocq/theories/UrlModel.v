(* MODEL of /repo/src/justhtml/sanitizer/url/{policy,runtime,spec}.py, the URL fast path of parser/engine.py and
   JustHTML.clean_url_value (parser/__init__.py).
   Values are str (the code calls str() on some of them).  url_filter is an arbitrary function. *)
From Verif Require Import Str EntitiesModel SerializerModel.
Open Scope N_scope.

(* url/policy.py:21 UrlHandling *)
Inductive handling := HAllow | HStrip | HProxy.
(* url/policy.py:24-41 UrlProxy (fields; validation is [validate_proxy_url] below) *)
Record url_proxy := UrlProxy { px_url : str; px_param : str }.
(* url/policy.py:44-63 UrlRule *)
Record url_rule := UrlRule {
  allow_fragment : bool; resolve_protocol_relative : option str; allowed_schemes : list str;
  allowed_hosts : option (list str); r_handling : option handling; r_allow_relative : option bool; r_proxy : option url_proxy }.
Definition url_filter_t := str -> str -> str -> option str.
(* url/policy.py:84-90 UrlPolicy *)
Record url_policy := UrlPolicy {
  default_handling : handling; default_allow_relative : bool; allow_rules : list (str * str * url_rule);
  url_filter : option url_filter_t; u_proxy : option url_proxy }.

(* result of a cleaning function: None, a string, or an exception (UnicodeEncodeError / ValueError) *)
Inductive outcome := Drop | Keep (s : str) | Err.

(* urllib.parse.quote(value, safe=''): [None] = UnicodeEncodeError *)
Definition quote0_byte (b : N) : str :=
  if is_alnum_ascii b || mem b (u "_.-~") then [b] else [37; hex_upper (b / 16); hex_upper (b mod 16)].
Definition quote0 (v : str) : option str := option_map (flat_map quote0_byte) (utf8_encode v).

(* runtime.py:28-30 _proxy_url_value *)
Definition proxy_url_value (p : url_proxy) (value : str) : outcome :=
  let sep := if mem 63 (px_url p) then [38] else [63] in
  match quote0 (px_param p), quote0 value with
  | Some a, Some b => Keep (px_url p ++ sep ++ a ++ [61] ++ b)%list
  | _, _ => Err
  end.

(* runtime.py:33-37: [\x00-\x20\x7f] and [\x00-\x1f\x7f] *)
Definition ws_or_control (c : N) : bool := (c <=? 32) || (c =? 127).
Definition control_char (c : N) : bool := (c <? 32) || (c =? 127).

(* runtime.py:47-50 _normalize_url_for_checking *)
Definition normalize_url (value : str) : str :=
  if negb (existsb ws_or_control value) then value else filter (fun c => negb (ws_or_control c)) value.

(* runtime.py:41-44 *)
Definition invisible_ranges : list (N * N) :=
  [(1564,1564); (8203,8207); (8234,8238); (8288,8297); (65024,65039); (65279,65279); (57344,63743);
   (917760,917999); (983040,1048573); (1048576,1114109)].
Definition is_invisible (c : N) : bool := in_ranges invisible_ranges c.
(* runtime.py:53-58 _strip_invisible_unicode *)
Definition strip_invisible (value : str) : str :=
  if is_ascii value then value
  else if negb (existsb is_invisible value) then value
  else filter (fun c => negb (is_invisible c)) value.

(* runtime.py:61-66 _prepare_standalone_url_value_for_checking *)
Definition prepare_standalone (value : str) : option str :=
  if mem 38 value then option_map strip_invisible (decode_entities_in_text value true)
  else Some (strip_invisible value).

(* runtime.py:69-77 _is_valid_scheme; the empty string would raise IndexError and is never passed *)
Definition is_valid_scheme (scheme : str) : bool :=
  match scheme with
  | [] => false
  | first :: t => is_alpha_ascii first && forallb (fun ch => is_alnum_ascii ch || mem ch (u "+-.")) t
  end.

(* runtime.py:80-91 _scheme_like_prefix *)
Definition find_or_len (sep : N) (value : str) (end_ : nat) : nat :=
  match find_char sep value with Some j => if Nat.ltb j end_ then j else end_ | None => end_ end.
Definition scheme_like_prefix (value : str) : option str :=
  match find_char 58 value with
  | None => None
  | Some O => None
  | Some idx =>
    let end_ := find_or_len 35 value (find_or_len 63 value (find_or_len 47 value (List.length value))) in
    if Nat.leb end_ idx then None else Some (firstn idx value)
  end.
(* runtime.py:94-100 _get_scheme *)
Definition get_scheme (value : str) : option str :=
  match scheme_like_prefix value with
  | None => None
  | Some s => if is_valid_scheme s then Some (lower s) else None
  end.
(* runtime.py:103-105 _has_invalid_scheme_like_prefix *)
Definition has_invalid_scheme_like_prefix (value : str) : bool :=
  match scheme_like_prefix value with None => false | Some s => negb (is_valid_scheme s) end.

(* CPython 3.12 urllib.parse.urlsplit, restricted to netloc.  [bracket_ok] and [nfkc_ok] are the parts that depend on
   the ipaddress module and on Unicode normalisation (_check_bracketed_netloc, _checknetloc): arbitrary predicates.
   [None] = ValueError. *)
Record urllib := Urllib { bracket_ok : str -> bool; nfkc_ok : str -> bool }.
Definition scheme_chars (c : N) : bool := is_alnum_ascii c || mem c (u "+-.").
Definition urlsplit_netloc (py : urllib) (value : str) : option str :=
  let url := filter (fun c => negb (mem c [9; 13; 10])) (drop_while (fun c => c <=? 32) value) in
  let url := match find_char 58 url with
             | Some (S i as idx) =>
               if match url with c :: _ => is_alpha_ascii c | [] => false end && forallb scheme_chars (firstn idx url)
               then skipn (S idx) url else url
             | _ => url
             end in
  if starts (u "//") url then
    let netloc := take_while (fun c => negb (mem c (u "/?#"))) (skipn 2 url) in
    if (mem 91 netloc && negb (mem 93 netloc)) || (mem 93 netloc && negb (mem 91 netloc)) then None
    else if mem 91 netloc && mem 93 netloc && negb (bracket_ok py netloc) then None
    else if negb (is_ascii netloc) && negb (nfkc_ok py netloc) then None
    else Some netloc
  else Some [].

(* str.rsplit(c, 1)[-1] = str.rpartition(c)[2]: what follows the last c *)
Fixpoint rpart (c : N) (s : str) : str :=
  match s with [] => [] | x :: t => if mem c t then rpart c t else if x =? c then t else s end.
(* str.rsplit(c, 1)[0] when c occurs: what precedes the last c *)
Fixpoint rhead (c : N) (s : str) : str :=
  match s with [] => [] | x :: t => if mem c t then x :: rhead c t else if x =? c then [] else [] end.
(* str.partition(c): before and after the first c (after = [] if c does not occur) *)
Definition part_before (c : N) (s : str) : str := take_while (fun x => negb (x =? c)) s.
Definition part_after (c : N) (s : str) : str := tl (drop_while (fun x => negb (x =? c)) s).

(* urllib.parse._NetlocResultMixinBase._hostinfo, hostname, port *)
Definition hostinfo (netloc : str) : str * str :=
  let hi := rpart 64 netloc in
  if mem 91 hi then
    let bracketed := part_after 91 hi in
    (part_before 93 bracketed, part_after 58 (part_after 93 bracketed))
  else (part_before 58 hi, part_after 58 hi).
Definition port_ok (port : str) : bool :=
  match port with
  | [] => true
  | _ => forallb is_digit_ascii port && (digits_value 10 (map (fun c => c - 48) port) <=? 65535)
  end.
Definition hostname (netloc : str) : str :=
  let h := fst (hostinfo netloc) in
  if mem 37 h then (lower (part_before 37 h) ++ 37 :: part_after 37 h)%list else lower h.

(* runtime.py:123-130 _raw_authority_host *)
Definition raw_authority_host (netloc : str) : str :=
  let authority := rpart 64 netloc in
  if starts [91] authority then
    if mem 93 authority then part_before 93 (tl authority) else []
  else if mem 58 authority then rhead 58 authority else authority.

(* runtime.py:152-160 _is_canonical_ipv4_decimal_label; for three digits `value <= "255"` is numeric comparison *)
Definition is_canonical_ipv4_decimal_label (value : str) : bool :=
  is_ascii value && str_isdecimal value && Nat.leb (List.length value) 3
  && ((Nat.eqb (List.length value) 1) || negb (starts [48] value))
  && ((Nat.ltb (List.length value) 3) || (digits_value 10 (map (fun c => c - 48) value) <=? 255)).
(* runtime.py:163-168 _is_legacy_ipv4_number *)
Definition is_legacy_ipv4_number (value : str) : bool :=
  match value with
  | [] => false
  | _ => if starts (u "0x") (lower value) then Nat.ltb 2 (List.length value) && forallb is_hex_ascii (skipn 2 value)
         else str_isdecimal value
  end.
(* runtime.py:143-149 _is_noncanonical_numeric_ipv4_host *)
Definition is_noncanonical_numeric_ipv4_host (host : str) : bool :=
  let labels := split_char 46 host in
  if negb (Nat.leb 1 (List.length labels) && Nat.leb (List.length labels) 4) then false
  else if negb (forallb is_legacy_ipv4_number labels) then false
  else negb (Nat.eqb (List.length labels) 4 && forallb is_canonical_ipv4_decimal_label labels).
(* runtime.py:133-140 _uses_canonical_ascii_url_host *)
Definition uses_canonical_ascii_url_host (host : str) : bool :=
  if mem 37 host then false
  else if existsb (fun c => 127 <? c) host then false
  else if negb (mem 58 host) && is_noncanonical_numeric_ipv4_host host then false
  else true.

(* runtime.py:108-120 _url_host_matches_allowed_hosts *)
Definition url_host_matches (py : urllib) (value : str) (hosts : list str) : bool :=
  match urlsplit_netloc py value with
  | None => false
  | Some netloc =>
    if negb (port_ok (snd (hostinfo netloc))) then false
    else if existsb ws_or_control netloc then false
    else let raw_host := raw_authority_host netloc in
         match raw_host with
         | [] => false
         | _ => if negb (uses_canonical_ascii_url_host raw_host) then false
                else let host := lower (hostname netloc) in
                     match host with [] => false | _ => in_strs host hosts end
         end
  end.

(* the three-way ending `if handling == "strip" ... "proxy" ... return x` *)
Definition finish (h : handling) (proxy : option url_proxy) (proxied kept : str) : outcome :=
  match h with
  | HStrip => Drop
  | HProxy => match proxy with None => Drop | Some p => proxy_url_value p proxied end
  | HAllow => Keep kept
  end.

(* runtime.py:235-307 _sanitize_url_value_with_rule, after the filter: [v] is the value with invisible characters removed *)
Definition sanitize_prepared (py : urllib) (rule : url_rule) (v : str) (h : handling) (allow_relative : bool) (proxy : option url_proxy) : outcome :=
  let stripped := strip v in
  if existsb control_char stripped then Drop else
  let normalized := normalize_url stripped in
  match normalized with
  | [] => Drop
  | _ =>
    if mem 92 normalized then Drop
    else if starts [35] normalized then
      if negb (allow_fragment rule) then Drop else finish h proxy stripped stripped
    else if match h with HProxy => has_invalid_scheme_like_prefix normalized | _ => false end then Drop
    else if starts (u "//") normalized then
      match resolve_protocol_relative rule with
      | None => Drop
      | Some [] => Drop
      | Some r =>
        let resolved_scheme := lower r in
        let resolved_url := (resolved_scheme ++ 58 :: normalized)%list in
        let raw_resolved_url := (resolved_scheme ++ 58 :: stripped)%list in
        if negb (in_strs resolved_scheme (allowed_schemes rule)) then Drop
        else if match allowed_hosts rule with Some hosts => negb (url_host_matches py raw_resolved_url hosts) | None => false end then Drop
        else finish h proxy resolved_url resolved_url
      end
    else match get_scheme normalized with
         | Some scheme =>
           if negb (in_strs scheme (allowed_schemes rule)) then Drop
           else if (str_eqb scheme (u "http") || str_eqb scheme (u "https")) && negb (starts (scheme ++ u "://")%list normalized) then
             match allowed_hosts rule with
             | Some _ => Drop
             | None => if negb allow_relative then Drop else finish h proxy stripped stripped
             end
           else if match allowed_hosts rule with Some hosts => negb (url_host_matches py stripped hosts) | None => false end then Drop
           else finish h proxy stripped stripped
         | None => if negb allow_relative then Drop else finish h proxy stripped stripped
         end
  end.

(* runtime.py:224-234 the filter step of _sanitize_url_value_with_rule ([f] = url_filter when apply_filter) *)
Definition sanitize_url_value (py : urllib) (rule : url_rule) (value tag attr : str) (h : handling) (allow_relative : bool)
    (proxy : option url_proxy) (f : option url_filter_t) : outcome :=
  match f with
  | Some f => match f tag attr value with
              | None => Drop
              | Some rewritten => sanitize_prepared py rule (strip_invisible rewritten) h allow_relative proxy
              end
  | None => sanitize_prepared py rule (strip_invisible value) h allow_relative proxy
  end.

(* runtime.py:171-180 *)
Definition effective_proxy (p : url_policy) (r : url_rule) := match r_proxy r with Some x => Some x | None => u_proxy p end.
Definition effective_handling (p : url_policy) (r : url_rule) := match r_handling r with Some x => x | None => default_handling p end.
Definition effective_allow_relative (p : url_policy) (r : url_rule) := match r_allow_relative r with Some x => x | None => default_allow_relative p end.

(* runtime.py:493-511 _sanitize_simple_url_sink_value *)
Definition sanitize_simple_sink (py : urllib) (p : url_policy) (r : url_rule) (tag attr value : str) : outcome :=
  sanitize_url_value py r value tag attr (effective_handling p r) (effective_allow_relative p r) (effective_proxy p r) (url_filter p).

(* the filter step shared by the list sinks, runtime.py:319-324 etc. *)
Definition list_filter (p : url_policy) (tag attr value : str) : option str :=
  match url_filter p with
  | None => Some value
  | Some f => option_map strip_invisible (f tag attr value)
  end.

(* runtime.py:38 _SRCSET_DENSITY_DESCRIPTOR_REGEX: (?:[0-9]+(?:\.[0-9]+)?|\.[0-9]+)x\Z, on the part before the x *)
Definition density_number (s : str) : bool :=
  let a := take_while is_digit_ascii s in
  let b := drop_while is_digit_ascii s in
  match b with
  | [] => negb (match a with [] => true | _ => false end)
  | c :: t => (c =? 46) && negb (match t with [] => true | _ => false end) && forallb is_digit_ascii t
  end.
(* float(number) <= 0 for such a number: no nonzero digit (a positive decimal that underflows to 0.0 is not modelled) *)
Definition density_zero (s : str) : bool := forallb (fun c => (c =? 48) || (c =? 46)) s.
(* runtime.py:363-386 _sanitize_srcset_descriptor *)
Definition sanitize_srcset_descriptor (value : str) : option str :=
  match value with
  | [] => Some []
  | _ =>
    match split_ws value with
    | [w] =>
      let token := lower w in
      let number := firstn (List.length token - 1) token in
      if ends (u "w") token || ends (u "h") token then
        if negb (str_isdecimal number) || match strip_chars (u "0") number with [] => true | _ => false end then None else Some token
      else if ends (u "x") token then
        if negb (density_number number) then None
        else if density_zero number then None else Some token
      else None
    | _ => None
    end
  end.

(* one candidate, runtime.py:333-358.  [None] = skip (empty) *)
Inductive cand := CSkip | CDrop | CErr | COk (s : str).
Definition first_word (s : str) : str := take_while (fun c => negb (is_space c)) s.
Definition sanitize_candidate (py : urllib) (r : url_rule) (tag attr : str) (h : handling) (ar : bool) (px : option url_proxy) (raw : str) : cand :=
  match strip raw with
  | [] => CSkip
  | c =>
    (* c.split(None, 1): first word, rest with leading whitespace removed *)
    let url_token := first_word c in
    let desc := strip (drop_while (fun x => negb (is_space x)) c) in
    match sanitize_url_value py r url_token tag attr h ar px None with
    | Drop => CDrop
    | Err => CErr
    | Keep url =>
      match sanitize_srcset_descriptor desc with
      | None => CDrop
      | Some d => COk (strip (url ++ 32 :: d)%list)
      end
    end
  end.
Fixpoint sanitize_candidates (py : urllib) (r : url_rule) (tag attr : str) (h : handling) (ar : bool) (px : option url_proxy) (l : list str) : option (option (list str)) :=
  (* None: exception; Some None: drop *)
  match l with
  | [] => Some (Some [])
  | c :: t =>
    match sanitize_candidate py r tag attr h ar px c with
    | CErr => None
    | CDrop => Some None
    | CSkip => sanitize_candidates py r tag attr h ar px t
    | COk s => match sanitize_candidates py r tag attr h ar px t with
               | Some (Some l') => Some (Some (s :: l'))
               | x => x
               end
    end
  end.
(* runtime.py:310-360 _sanitize_srcset_value *)
Definition sanitize_srcset (py : urllib) (p : url_policy) (r : url_rule) (tag attr value : str) : outcome :=
  match list_filter p tag attr value with
  | None => Drop
  | Some v =>
    match strip v with
    | [] => Drop
    | stripped =>
      match sanitize_candidates py r tag attr (effective_handling p r) (effective_allow_relative p r) (effective_proxy p r) (split_char 44 stripped) with
      | None => Err
      | Some None => Drop
      | Some (Some []) => Drop
      | Some (Some l) => Keep (join (u ", ") l)
      end
    end
  end.

(* runtime.py:437-466 _sanitize_url_tokens: None = exception, Some None = drop *)
Fixpoint sanitize_tokens (py : urllib) (r : url_rule) (tag attr : str) (h : handling) (ar : bool) (px : option url_proxy) (l : list str) : option (option (list str)) :=
  match l with
  | [] => Some (Some [])
  | t :: l' =>
    match sanitize_url_value py r t tag attr h ar px None with
    | Err => None
    | Drop => Some None
    | Keep s => match sanitize_tokens py r tag attr h ar px l' with
                | Some (Some l'') => Some (Some (s :: l''))
                | x => x
                end
    end
  end.
Definition sanitize_token_list (py : urllib) (p : url_policy) (r : url_rule) (tag attr value : str) (split : str -> list str) : outcome :=
  match list_filter p tag attr value with
  | None => Drop
  | Some v =>
    match strip v with
    | [] => Drop
    | stripped =>
      match sanitize_tokens py r tag attr (effective_handling p r) (effective_allow_relative p r) (effective_proxy p r) (split stripped) with
      | None => Err
      | Some None => Drop
      | Some (Some []) => Drop
      | Some (Some l) => Keep (join [32] l)
      end
    end
  end.
(* runtime.py:389-410 _sanitize_space_separated_url_list *)
Definition sanitize_space_list py p r tag attr value := sanitize_token_list py p r tag attr value split_ws.
(* runtime.py:413-434 _sanitize_comma_or_space_separated_url_list: re.split(r"[\s,]+", stripped), nonempty pieces.
   \s for str patterns is str.isspace *)
Definition sanitize_comma_or_space_list py p r tag attr value :=
  sanitize_token_list py p r tag attr value (split_by_go (fun c => is_space c || (c =? 44)) []).

(* runtime.py:469-490 _extract_meta_refresh_url *)
Definition extract_meta_refresh_url (value : str) : option (str * str) :=
  if negb (mem 59 value) then None else
  let prefix := part_before 59 value in
  let url_value := part_after 59 value in
  if negb (str_eqb (lower (strip (part_before 61 url_value))) (u "url")) || negb (mem 61 url_value) then None else
  let candidate := strip (part_after 61 url_value) in
  match candidate with
  | [] => None
  | q :: t =>
    let candidate := if (q =? 39) || (q =? 34) then part_before q t else candidate in
    match candidate with
    | [] => None
    | _ => if mem 44 candidate || mem 59 candidate then None else Some (strip prefix, candidate)
    end
  end.
(* runtime.py:514-534 _sanitize_meta_refresh_sink_value *)
Definition sanitize_meta_refresh (py : urllib) (p : url_policy) (r : url_rule) (tag attr value : str) : outcome :=
  match extract_meta_refresh_url value with
  | None => Drop
  | Some (prefix, candidate) =>
    match sanitize_simple_sink py p r tag attr candidate with
    | Keep s => Keep (strip prefix ++ u ";url=" ++ s)%list
    | x => x
    end
  end.

(* url/spec.py:12 UrlSinkKind; runtime.py:537-561 _sanitize_url_sink_value *)
Inductive sink_kind := KUrl | KSrcset | KCommaList | KSpaceList | KMetaRefresh.
Definition sanitize_sink (py : urllib) (p : url_policy) (r : url_rule) (tag attr : str) (k : sink_kind) (value : str) : outcome :=
  match k with
  | KUrl => sanitize_simple_sink py p r tag attr value
  | KSrcset => sanitize_srcset py p r tag attr value
  | KCommaList => sanitize_comma_or_space_list py p r tag attr value
  | KSpaceList => sanitize_space_list py p r tag attr value
  | KMetaRefresh => sanitize_meta_refresh py p r tag attr value
  end.

(* parser/__init__.py:337-365 JustHTML.clean_url_value, for a UrlRule.  Err: ValueError / UnicodeEncodeError *)
Definition clean_url_value (py : urllib) (value : str) (r : url_rule) : outcome :=
  match r_handling r, r_proxy r with
  | Some HProxy, None => Err
  | _, _ =>
    match prepare_standalone value with
    | None => Err
    | Some v =>
      match sanitize_url_value py r v [42] [42] (match r_handling r with Some h => h | None => HAllow end)
              (match r_allow_relative r with Some b => b | None => true end) (r_proxy r) None with
      | Keep s => match escape_url_value s with Some e => Keep e | None => Err end
      | x => x
      end
    end
  end.

(* parser/engine.py:268-331 _sanitize_simple_url_fast; [None] = _URL_FAST_FALLBACK.
   For ASCII strings isprintable() means every character is in 0x20..0x7e. *)
Definition printable_ascii (s : str) : bool := forallb (fun c => (32 <=? c) && (c <=? 126)) s.
Definition url_fast (value : str) (rule : url_rule) (allow_relative : bool) : option outcome :=
  if negb (is_ascii value) then None else
  let stripped := strip value in
  match stripped with
  | [] => Some Drop
  | _ =>
    if starts (u "https://") stripped && negb (mem 32 stripped) && printable_ascii stripped then
      Some (if in_strs (u "https") (allowed_schemes rule) then Keep stripped else Drop)
    else if starts (u "http://") stripped && negb (mem 32 stripped) && printable_ascii stripped then
      Some (if in_strs (u "http") (allowed_schemes rule) then Keep stripped else Drop)
    else if negb (printable_ascii stripped) then Some Drop
    else if negb (mem 58 stripped) then
      if mem 92 stripped then Some Drop
      else if starts [35] stripped then Some (if allow_fragment rule then Keep stripped else Drop)
      else if starts (u "//") stripped then
        match resolve_protocol_relative rule with
        | None => Some Drop
        | Some [] => Some Drop
        | Some r => if negb (in_strs (lower r) (allowed_schemes rule)) then Some Drop else Some (Keep (lower r ++ 58 :: stripped)%list)
        end
      else Some (if allow_relative then Keep stripped else Drop)
    else
      let normalized := normalize_url stripped in
      if match normalized with [] => true | _ => false end || mem 92 normalized then Some Drop
      else if starts [35] normalized then Some (if allow_fragment rule then Keep stripped else Drop)
      else if starts (u "//") normalized then
        match resolve_protocol_relative rule with
        | None => Some Drop
        | Some [] => Some Drop
        | Some r => if negb (in_strs (lower r) (allowed_schemes rule)) then Some Drop else Some (Keep (lower r ++ 58 :: normalized)%list)
        end
      else match get_scheme normalized with
           | Some scheme =>
             if negb (in_strs scheme (allowed_schemes rule)) then Some Drop
             else if (str_eqb scheme (u "http") || str_eqb scheme (u "https")) && negb (starts (scheme ++ u "://")%list normalized) && negb allow_relative
             then Some Drop
             else Some (Keep stripped)
           | None => Some (if allow_relative then Keep stripped else Drop)
           end
  end.

(* parser/engine.py:495-515 eligibility for the fast path (fast_allow_relative is not None), for kind "url" *)
Definition fast_eligible (p : url_policy) (r : url_rule) : bool :=
  match effective_handling p r, r_proxy r, u_proxy p, url_filter p, allowed_hosts r with
  | HAllow, None, None, None, None => true
  | _, _, _, _, _ => false
  end.
(* parser/engine.py:3234-3255, 6297-6316, 6420-6440: a URL attribute met by the default safe parser *)
Definition parse_time_url (py : urllib) (p : url_policy) (r : url_rule) (tag attr value : str) : outcome :=
  if fast_eligible p r then
    match url_fast value r (effective_allow_relative p r) with
    | Some o => o
    | None => sanitize_sink py p r tag attr KUrl value
    end
  else sanitize_sink py p r tag attr KUrl value.

(* sanitizer/policy_defaults.py:87-103 the URL policy of DEFAULT_POLICY and DEFAULT_DOCUMENT_POLICY *)
Definition default_a_href : url_rule := UrlRule true (Some (u "https")) [u "http"; u "https"; u "mailto"; u "tel"] None (Some HAllow) None None.
Definition default_img_src : url_rule := UrlRule true None [] None (Some HAllow) None None.
Definition default_url_policy : url_policy :=
  UrlPolicy HStrip true [((u "a", u "href"), default_a_href); ((u "img", u "src"), default_img_src)] None None.
