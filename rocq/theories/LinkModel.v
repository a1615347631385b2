(* MODEL of src/justhtml/transforms/linkify_core.py and linkify.py (the Linkify transform). *)
From Verif Require Import Str EntitiesModel SerializerModel.
Open Scope N_scope.

(* ---------- the candidate regex, linkify_core.py:58-90 ---------- *)
(* what follows a scheme: [^\s<>\uFF5C] *)
Definition body (c : N) : bool := negb (is_space c || (c =? 60) || (c =? 62) || (c =? 65372)).
(* one ASCII letter under (?i): its two cases and the characters Python's re folds to it (long s, dotless and dotted i, Kelvin sign) *)
Definition ci (x c : N) : bool :=
  (alow_c c =? x) || ((x =? 115) && (c =? 383)) || ((x =? 105) && ((c =? 305) || (c =? 304))) || ((x =? 107) && (c =? 8490)).
Fixpoint starts_ci (p s : str) : bool :=
  match p, s with [], _ => true | x :: p', c :: s' => ci x c && starts_ci p' s' | _, [] => false end.
(* [0-9A-Za-z] under (?i) *)
Definition alnum_ci (c : N) : bool := is_alnum_ascii c || (c =? 383) || (c =? 305) || (c =? 304) || (c =? 8490).
(* [0-9A-Za-z\w\u2600-\u27bf] *)
Definition label_char (c : N) : bool := is_alnum c || (c =? 95) || ((9728 <=? c) && (c <=? 10175)).
Definition label_or_dash (c : N) : bool := label_char c || (c =? 45).
(* the longest prefix of a run that ends in a label character: what the greedy LABEL takes *)
Definition label_len (run : str) : nat := List.length (rstrip_by (fun c => negb (label_char c)) (firstn 63 run)).
Definition label (s : str) : option nat :=
  match s with
  | c :: _ => if label_char c then Some (label_len (take_while label_or_dash s)) else None
  | [] => None
  end.
(* a LABEL that is followed by a dot: its length (a dot is no label character, so the whole run must be a label) *)
Definition dotted_label (s : str) : option nat :=
  let run := take_while label_or_dash s in
  match label s, drop_while label_or_dash s with
  | Some n, c :: _ => if (c =? 46) && (n =? List.length run)%nat then Some n else None
  | _, _ => None
  end.
(* (?:LABEL\.)*LABEL, as many dotted labels as possible *)
Fixpoint labels (fuel : nat) (s : str) : option nat :=
  match fuel with
  | O => label s
  | S k => match dotted_label s with
           | Some n => match labels k (skipn (S n) s) with Some m => Some (S n + m)%nat | None => label s end
           | None => label s
           end
  end.
(* (?:LABEL\.)+LABEL *)
Definition domain (s : str) : option nat :=
  match dotted_label s with
  | Some n => option_map (fun m => (S n + m)%nat) (labels (List.length s) (skipn (S n) s))
  | None => None
  end.
(* (?:/[^\s<>\uFF5C]* )? after n characters *)
Definition with_path (s : str) (n : nat) : nat :=
  match skipn n s with
  | c :: t => if c =? 47 then (n + 1 + List.length (take_while body t))%nat else n
  | [] => n
  end.
Definition local_char (c : N) : bool := alnum_ci c || mem c (u ".!#$%&'*+/=?^_`{|}~-""").
Definition email (s : str) : option nat :=
  match s with
  | c :: t =>
    if alnum_ci c then
      let run := take_while local_char t in
      match drop_while local_char t with
      | a :: r => if (a =? 64) && (List.length run <=? 63)%nat then option_map (fun m => (2 + List.length run + m)%nat) (domain r) else None
      | [] => None
      end
    else None
  | [] => None
  end.
(* (?:\d{1,3}\.){k}\d{1,3} *)
Fixpoint ipv4 (k : nat) (s : str) : option nat :=
  let run := take_while is_decimal s in
  match run with
  | [] => None
  | _ =>
    match k with
    | O => Some (Nat.min 3 (List.length run))
    | S j => match drop_while is_decimal s with
             | c :: r => if (c =? 46) && (List.length run <=? 3)%nat then option_map (fun m => (S (List.length run) + m)%nat) (ipv4 j r) else None
             | [] => None
             end
    end
  end.
(* prefix then [^\s<>\uFF5C]+ *)
Definition prefixed (p s : str) : option nat :=
  if starts_ci p s then
    match take_while body (skipn (List.length p) s) with [] => None | b => Some (List.length p + List.length b)%nat end
  else None.
Fixpoint first_some (l : list (option nat)) : option nat :=
  match l with [] => None | Some n :: _ => Some n | None :: t => first_some t end.
(* the alternatives, in order *)
Definition candidate (s : str) : option nat :=
  first_some [ prefixed (u "https://") s; prefixed (u "http://") s; prefixed (u "ftp://") s; prefixed (u "mailto:") s; prefixed (u "//") s; prefixed (u "www.") s;
               email s; option_map (with_path s) (ipv4 3 s); option_map (with_path s) (domain s) ].
(* the left boundary [^0-9A-Za-z_] *)
Definition boundary (c : N) : bool := negb (alnum_ci c || (c =? 95)).
(* finditer: [skip] characters are inside the last match; [ok]: the character before is an unused boundary.  Spans are offsets in the text. *)
Fixpoint scan (skip : nat) (ok : bool) (pos : nat) (s : str) : list (nat * nat) :=
  match s with
  | [] => []
  | c :: t =>
    match skip with
    | S k => scan k false (S pos) t
    | O => match (if ok then candidate s else None) with
           | Some n => (pos, (pos + n)%nat) :: scan (n - 1) false (S pos) t
           | None => scan O (boundary c) (S pos) t
           end
    end
  end.
Definition candidates (text : str) : list (nat * nat) := scan O true O text.

(* ---------- validation ---------- *)
(* linkify_core.py:29-51 DEFAULT_TLDS *)
Definition default_tlds : list str :=
  [u "biz"; u "com"; u "edu"; u "gov"; u "net"; u "org"; u "pro"; u "web"; u "xxx"; u "aero"; u "asia"; u "coop"; u "info"; u "museum"; u "name"; u "shop"; [1088; 1092]].
(* linkify_core.py:94-98 _CC_TLD_RE: first letter, second letters *)
Definition cc_table : list (N * str) :=
  [ (97, u "cdefgilmnoqrstuwxz"); (98, u "abdefghijmnorstvwyz"); (99, u "acdfghiklmnoruvwxyz"); (100, u "ejkmoz"); (101, u "cegrstu"); (102, u "ijkmor");
    (103, u "abdefghilmnpqrstuwy"); (104, u "kmnrtu"); (105, u "delmnoqrst"); (106, u "emop"); (107, u "eghimnprwyz"); (108, u "abcikrstuvy");
    (109, u "acdeghklmnopqrstuvwxyz"); (110, u "acefgilopruz"); (111, u "m"); (112, u "aefghklmnrstwy"); (113, u "a"); (114, u "eosuw"); (115, u "abcdeghijklmnortuvxyz");
    (116, u "cdfghjklmnortvwz"); (117, u "agksyz"); (118, u "aceginu"); (119, u "fs"); (121, u "et"); (122, u "amw") ].
Definition fold_ci (c : N) : N := if c =? 383 then 115 else if (c =? 305) || (c =? 304) then 105 else if c =? 8490 then 107 else alow_c c.
Definition is_cc (t : str) : bool :=
  match t with
  | [a; b] => existsb (fun p => (fst p =? fold_ci a) && mem (fold_ci b) (snd p)) cc_table
  | _ => false
  end.
Record config := Config { fuzzy_ip : bool; extra_tlds : list str }.
(* linkify_core.py:101-111 _is_valid_tld *)
Definition valid_tld (cfg : config) (tld : str) : bool :=
  let t := lower tld in
  match t with
  | [] => false
  | _ => is_cc t || starts (u "xn--") t || in_strs t default_tlds || in_strs t (extra_tlds cfg)
  end.
(* s.split(c, 1) and s.rsplit(c, 1), when c is in s *)
Definition split1 (c : N) (s : str) : option (str * str) := match find_char c s with Some k => Some (firstn k s, skipn (S k) s) | None => None end.
Fixpoint rsplit1 (c : N) (s : str) : option (str * str) :=
  match s with
  | [] => None
  | x :: t => match rsplit1 c t with
              | Some (a, b) => Some (x :: a, b)
              | None => if x =? c then Some ([], t) else None
              end
  end.
(* linkify_core.py:114-124 _split_domain_for_tld: the TLD *)
Definition tld_of (host : str) : option str :=
  match strip_chars (u ".") (strip host) with
  | [] => None
  | h => if str_eqb (lower h) (u "localhost") then Some [] else match rsplit1 46 h with Some (_, tld) => Some tld | None => None end
  end.
(* linkify_core.py:137-149 _is_valid_ipv4; None: int() raises ValueError *)
Fixpoint octets (l : list str) : option bool :=
  match l with
  | [] => Some true
  | p :: t =>
    match p with
    | [] => Some false
    | _ => if (3 <? List.length p)%nat then Some false
           else if negb (str_isdigit p) then Some false
           else match py_int false 0 p with
                | None => None
                | Some v => if 255 <? v then Some false else octets t
                end
    end
  end.
Definition valid_ipv4 (host : str) : option bool :=
  let parts := split_char 46 host in if negb (List.length parts =? 4)%nat then Some false else octets parts.
(* linkify_core.py:160-166 _split_host_and_rest: the host *)
Definition not_tail (c : N) : bool := negb (mem c (u "/?#")).
Definition host_of (raw : str) : str := take_while not_tail raw.
Definition tail_of (raw : str) : str := drop_while not_tail raw.
(* linkify_core.py:169-182 _strip_wrapping: the text and how much was removed at the start *)
Definition strip_wrapping (raw : str) : str * nat :=
  match raw with
  | c :: t => if mem c (u "<""'([{") && mem (last raw 0) (u ">""')]}") then (removelast t, 1%nat) else (raw, O)
  | [] => (raw, O)
  end.
(* linkify_core.py:185-240 _trim_trailing, on the reversed candidate; [counts]: the characters counted *)
Definition cnt (c : N) (s : str) : nat := count_occ N.eq_dec s c.
(* counts are of candidate[:end] after the first strip and follow every further strip, so they are those of what is left *)
Fixpoint trim_quotes (r : str) : str :=
  match r with
  | q :: t => if mem q (u """'") && Nat.odd (cnt q r) then trim_quotes t else r
  | [] => []
  end.
Definition opener (c : N) : option N :=
  if c =? 41 then Some 40 else if c =? 93 then Some 91 else if c =? 125 then Some 123 else if c =? 62 then Some 60 else None.
Fixpoint trim_brackets (r : str) : str :=
  match r with
  | c :: t => match opener c with
              | Some o => if (cnt o r <? cnt c r)%nat then trim_brackets t else r
              | None => r
              end
  | [] => []
  end.
Definition trim_trailing (cand : str) : str :=
  rev (trim_brackets (trim_quotes (drop_while (fun c => mem c (u ".,;:!?")) (rev cand)))).

Definition starts_any (ps : list str) (s : str) : bool := existsb (fun p => starts p s) ps.
(* linkify_core.py:243-256 _href_for; true: email *)
Definition href_for (text : str) : str * bool :=
  let l := lower text in
  if starts (u "mailto:") l then (text, true)
  else if mem 64 text && negb (starts_any [u "http://"; u "https://"; u "ftp://"; u "//"; u "www."] l) then (u "mailto:" ++ text, true)
  else if starts_any [u "http://"; u "https://"; u "ftp://"; u "//"] l then (text, false)
  else (u "http://" ++ text, false).

Section Idna.
(* linkify_core.py:152-157 host.encode("idna"): Python's codec, any function; None: UnicodeError *)
Variable idna : str -> option str.
Definition punycode_host (host : str) : str := match idna host with Some h => h | None => host end.
(* linkify_core.py:259-312 _punycode_href *)
Definition punycode_href (href : str) : str :=
  let l := lower href in
  if starts (u "mailto:") l then href else
  let n := if starts (u "http://") l then 7%nat else if starts (u "https://") l then 8%nat else if starts (u "ftp://") l then 6%nat else if starts (u "//") l then 2%nat else O in
  let prefix := firstn n href in
  let rest := skipn n href in
  let hostport := host_of rest in
  let tail := tail_of rest in
  let '(userinfo, hostport2) := match rsplit1 64 hostport with Some (a, b) => (a, b) | None => ([], hostport) end in
  if starts (u "[") hostport2 then href else
  let '(host, port) := match split1 58 hostport2 with Some (a, b) => (a, b) | None => (hostport2, []) end in
  let rebuilt := punycode_host host in
  let rebuilt := match port with [] => rebuilt | _ => rebuilt ++ u ":" ++ port end in
  let rebuilt := match userinfo with [] => rebuilt | _ => userinfo ++ u "@" ++ rebuilt end in
  prefix ++ rebuilt ++ tail.

Record link := Link { l_start : nat; l_end : nat; l_text : str; l_href : str; l_email : bool }.
(* continue / int() raises / go on *)
Inductive verdict := VSkip | VRaise | VGo.
Definition both (a b : verdict) : verdict := match a with VGo => b | _ => a end.
Definition skip_if (b : bool) : verdict := if b then VSkip else VGo.
Definition char_at (text : str) (i : nat) : option N := nth_error text i.
Definition schemes : list str := [u "http://"; u "https://"; u "ftp://"].
(* port > "65535" as strings *)
Fixpoint str_gt (a b : str) : bool :=
  match a, b with
  | [], _ => false
  | _ :: _, [] => true
  | x :: a', y :: b' => if x =? y then str_gt a' b' else y <? x
  end.
Definition no_dots (s : str) : str := replace_char 46 [] s.

(* 361-368 fuzzy domain right after :// or /:@ *)
Definition check_before (text : str) (start : nat) (cand : str) : verdict :=
  if negb (starts_any [u "http://"; u "https://"; u "ftp://"; u "mailto:"; u "//"; u "www."] (lower cand)) && negb (mem 64 cand) then
    both (skip_if ((3 <=? start)%nat && str_eqb (firstn 3 (skipn (start - 3) text)) (u "://")))
         (skip_if ((0 <? start)%nat && match char_at text (start - 1) with Some c => mem c (u "/:@") | None => false end))
  else VGo.
(* 370-381 fuzzy IP *)
Definition check_fuzzy_ip (cfg : config) (cand : str) : verdict :=
  if match cand with c :: _ => is_digit c | [] => false end && mem 46 cand && negb (starts_any [u "http://"; u "https://"; u "ftp://"; u "//"] (lower cand)) then
    let host := host_of cand in
    if str_isdigit (no_dots host) then
      match valid_ipv4 host with None => VRaise | Some true => skip_if (negb (fuzzy_ip cfg)) | Some false => VGo end
    else VGo
  else VGo.
(* 383-404 //host *)
Definition check_proto_rel (text : str) (start : nat) (cand : str) : verdict :=
  if starts (u "//") (lower cand) then
    both (skip_if ((0 <? start)%nat && match char_at text (start - 1) with Some c => mem c (u ":/") | None => false end))
    (let hostport := host_of (skipn 2 cand) in
     both (skip_if (match hostport with [] => true | _ => false end))
     (both (skip_if (starts (u "[") hostport))
     (let h := match rsplit1 64 hostport with Some (_, b) => b | None => hostport end in
      let h := match split1 58 h with Some (a, _) => a | None => h end in
      both (skip_if (negb (str_eqb (lower h) (u "localhost")) && negb (mem 46 h)))
           (skip_if (mem 95 h)))))
  else VGo.
(* 406-426 fuzzy domain *)
Definition check_fuzzy (cfg : config) (cand : str) : verdict :=
  let l := lower cand in
  if negb (starts_any [u "http://"; u "https://"; u "ftp://"; u "mailto:"] l) && negb (starts (u "//") l) && negb (starts (u "www.") l) && negb (mem 64 cand) then
    let host := host_of cand in
    both (skip_if (mem 95 host))
    (let tld := match tld_of host with None => VSkip | Some t => skip_if (negb (valid_tld cfg t)) end in
     if mem 46 host && str_isdigit (no_dots host) then
       match valid_ipv4 host with None => VRaise | Some true => VGo | Some false => tld end
     else tld)
  else VGo.
(* 428-446 fuzzy email *)
Definition check_email (cfg : config) (cand : str) : verdict :=
  let l := lower cand in
  match rsplit1 64 cand with
  | Some (_, dom) =>
    if negb (starts_any [u "http://"; u "https://"; u "ftp://"; u "//"] l) && negb (starts (u "mailto:") l) then
      let host := host_of dom in
      both (skip_if (mem 95 host)) (match tld_of host with None => VSkip | Some t => skip_if (negb (valid_tld cfg t)) end)
    else VGo
  | None => VGo
  end.
(* 448-470 scheme://host:port *)
Definition bad_port (port : str) : bool :=
  match port with
  | [] => false
  | _ => negb (is_ascii port) || negb (str_isdecimal port) || (5 <? List.length port)%nat || ((List.length port =? 5)%nat && str_gt port (u "65535"))
  end.
Definition ends_with (c : N) (s : str) : bool := match rev s with x :: _ => x =? c | [] => false end.
Definition check_url (cand : str) : verdict :=
  if starts_any schemes (lower cand) then
    match find (u "://") cand with
    | None => VRaise   (* split("://", 1)[1] on a text without it: IndexError; excluded by C36_never_raises *)
    | Some k =>
      let hostport := host_of (skipn (k + 3) cand) in
      both (skip_if (match hostport with [] => true | _ => false end))
      (let hostport := match rsplit1 64 hostport with Some (_, b) => b | None => hostport end in
       let '(host, port) := match (if starts (u "[") hostport then None else split1 58 hostport) with Some (a, b) => (a, b) | None => (hostport, []) end in
       both (skip_if (bad_port port))
       (both (skip_if (match host with [] => true | c :: _ => (c =? 45) || (c =? 46) end || ends_with 45 host || ends_with 46 host || contains (u "..") host))
       (both (skip_if (mem 95 host))
       (if mem 46 host && str_isdigit (no_dots host) then
          match valid_ipv4 host with None => VRaise | Some v => skip_if (negb v) end
        else VGo))))
    end
  else VGo.
(* 331-359 from the raw candidate to the text that is checked: its start and itself; None: continue *)
Definition shape (text : str) (start : nat) (raw : str) : option (nat * str) :=
  let '(stripped, s_trim) := strip_wrapping raw in
  let start := (start + s_trim)%nat in
  match trim_trailing stripped with
  | [] => None
  | cand =>
    match (if starts_any schemes (lower cand) && contains (u ")[") cand then
             match find (u ")[") cand with Some k => trim_trailing (firstn k cand) | None => cand end
           else cand) with
    | [] => None
    | (c :: t) as cand =>
      if mem c (u """'") && match char_at text start with Some x => x =? c | None => false end then
        match t with [] => None | _ => Some (S start, t) end
      else Some (start, cand)
    end
  end.
Inductive found := FSkip | FRaise | FLink (l : link).
(* linkify_core.py:326-476 one round of the loop *)
Definition one_candidate (cfg : config) (text : str) (span : nat * nat) : found :=
  let '(s, e) := span in
  match shape text s (firstn (e - s) (skipn s text)) with
  | None => FSkip
  | Some (start, cand) =>
    match both (check_before text start cand) (both (check_fuzzy_ip cfg cand) (both (check_proto_rel text start cand)
         (both (check_fuzzy cfg cand) (both (check_email cfg cand) (check_url cand))))) with
    | VSkip => FSkip
    | VRaise => FRaise
    | VGo => let '(href, email) := href_for cand in FLink (Link start (start + List.length cand) cand (punycode_href href) email)
    end
  end.
(* the whole loop; None: an exception *)
Fixpoint collect (cfg : config) (text : str) (spans : list (nat * nat)) : option (list link) :=
  match spans with
  | [] => Some []
  | x :: t =>
    match one_candidate cfg text x with
    | FRaise => None
    | FSkip => collect cfg text t
    | FLink l => option_map (cons l) (collect cfg text t)
    end
  end.
(* 478-490 sort by (start, -length), stable, and keep the first of overlapping links *)
Definition before (a b : link) : bool :=
  (l_start a <? l_start b)%nat || ((l_start a =? l_start b)%nat && (l_end b - l_start b <? l_end a - l_start a)%nat).
Fixpoint insert (x : link) (l : list link) : list link :=
  match l with [] => [x] | y :: t => if before y x || negb (before x y) then y :: insert x t else x :: y :: t end.
Definition sort (l : list link) : list link := fold_left (fun acc x => insert x acc) l [].
Fixpoint keep (last : option nat) (l : list link) : list link :=
  match l with
  | [] => []
  | x :: t => if match last with Some e => (l_start x <? e)%nat | None => false end then keep last t else x :: keep (Some (l_end x)) t
  end.
(* linkify_core.py:319-490 find_links_with_config, for any candidate finder *)
Definition find_links_by (cands : str -> list (nat * nat)) (cfg : config) (text : str) : option (list link) :=
  match text with
  | [] => Some []
  | _ => option_map (fun l => keep None (sort l)) (collect cfg text (cands text))
  end.
Definition find_links (cfg : config) (text : str) : option (list link) := find_links_by candidates cfg text.

(* ---------- linkify.py:40-87 apply_linkify_transform: the nodes that replace the text node ---------- *)
Inductive part := PText (t : str) | PLink (href text : str).
Fixpoint parts (text : str) (cursor : nat) (ms : list link) : list part :=
  match ms with
  | [] => if (cursor <? List.length text)%nat then [PText (skipn cursor text)] else []
  | m :: t =>
    (if (cursor <? l_start m)%nat then [PText (firstn (l_start m - cursor) (skipn cursor text))] else [])
    ++ PLink (l_href m) (l_text m) :: parts text (l_end m) t
  end.
(* transforms/runtime.py:366-460, 676-690, 878-898 the walk, when Linkify is the only transform.  New text nodes are marked and not looked at again;
   the text inside a new link is looked at unless a is a skip tag.  [ns]: the namespace of the parent.  Fuel: depth. *)
Inductive lres (A : Type) := LOk (a : A) | LRaise | LFuel.
Arguments LOk {A}. Arguments LRaise {A}. Arguments LFuel {A}.
Definition lbind {A B} (x : lres A) (f : A -> lres B) : lres B := match x with LOk a => f a | LRaise => LRaise | LFuel => LFuel end.
Fixpoint lmap {A B} (f : A -> lres B) (l : list A) : lres (list B) :=
  match l with [] => LOk [] | x :: t => lbind (f x) (fun y => lbind (lmap f t) (fun ys => LOk (y :: ys))) end.
Definition link_ns (ns : option str) : option str := match ns with None => Some (u "html") | Some [] => Some (u "html") | Some n => Some n end.
Section Walk.
Variable cands : str -> list (nat * nat).
Variable cfg : config.
Variable skip_tags : list str.
Fixpoint walk (fuel : nat) (skip : bool) (ns : option str) (n : node) : lres (list node) :=
  match fuel with
  | O => LFuel
  | S k =>
    match n with
    | NText d =>
      if skip then LOk [n] else
      match find_links_by cands cfg d with
      | None => LRaise
      | Some [] => LOk [n]
      | Some ms =>
        lmap (fun p => match p with
                       | PText t => LOk (NText t)
                       | PLink href t =>
                         lbind (walk k (skip || in_strs (u "a") skip_tags) (link_ns ns) (NText t))
                           (fun c => LOk (NElem (u "a") (link_ns ns) [(u "href", Some href)] c None))
                       end) (parts d O ms)
      end
    | NDocument c => lbind (lmap (walk k skip None) c) (fun c => LOk [NDocument (List.concat c)])
    | NElem name ns' attrs c tc =>
      let skip' := skip || in_strs (lower name) skip_tags in
      lbind (lmap (walk k skip' ns') c) (fun c =>
      match tc with
      | None => LOk [NElem name ns' attrs (List.concat c) None]
      | Some l => lbind (lmap (walk k skip' None) l) (fun l => LOk [NElem name ns' attrs (List.concat c) (Some (List.concat l))])
      end)
    | _ => LOk [n]
    end
  end.
End Walk.
End Idna.
Arguments LOk {A}. Arguments LRaise {A}. Arguments LFuel {A}.
(* spec.py:319-332 the default skip tags *)
Definition default_skip_tags : list str := [u "a"; u "code"; u "pre"; u "script"; u "style"; u "textarea"].
