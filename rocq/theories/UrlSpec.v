(* SPECIFICATION (independent of /repo): how a browser reads a URL.  WHATWG URL 4.4 (basic URL parser) as far as the
   scheme and the authority are concerned; HTML "parse a srcset attribute", "split on ASCII whitespace" and the
   shared declarative refresh steps as far as the URLs they yield are concerned. *)
From Verif Require Import Str.
Open Scope N_scope.

(* 4.4 steps 1-3: leading and trailing C0 control or space are removed, then every ASCII tab or newline *)
Definition c0_or_space (c : N) : bool := c <=? 32.
Definition tab_or_newline (c : N) : bool := (c =? 9) || (c =? 10) || (c =? 13).
Definition url_input (s : str) : str := filter (fun c => negb (tab_or_newline c)) (strip_by c0_or_space s).

(* scheme start state / scheme state: ASCII alpha, then alphanumerics and + - . up to ':' *)
Definition scheme_char (c : N) : bool := is_alnum_ascii c || (c =? 43) || (c =? 45) || (c =? 46).
Fixpoint scheme_state (s : str) : option (str * str) :=
  match s with
  | [] => None
  | c :: t => if c =? 58 then Some ([], t)
              else if scheme_char c then
                match scheme_state t with Some (sch, rest) => Some (alow_c c :: sch, rest) | None => None end
              else None
  end.
Definition scheme_start (s : str) : option (str * str) :=
  match s with c :: _ => if is_alpha_ascii c then scheme_state s else None | [] => None end.

(* the scheme of an absolute URL; [None]: the URL is resolved against the document's *)
Definition browser_scheme (url : str) : option str := option_map fst (scheme_start (url_input url)).

Definition slash (c : N) : bool := (c =? 47) || (c =? 92).
(* no scheme and two leading slashes of either kind: another host, same scheme (the document's URL is special) *)
Definition protocol_relative (url : str) : Prop :=
  browser_scheme url = None /\ exists a b t, url_input url = a :: b :: t /\ slash a = true /\ slash b = true.
Definition fragment_only (url : str) : Prop := exists t, url_input url = 35 :: t.

(* a valid scheme, lower case *)
Definition valid_scheme (s : str) : Prop :=
  exists c t, s = c :: t /\ is_lower_ascii c = true /\ forallb (fun c => scheme_char c && negb (is_upper_ascii c)) t = true.

(* 4.4 authority/host states.  The host as it is written in the URL, [None] if there is none or the URL is invalid.
   For special schemes any number of slashes may precede the authority and '\' ends it.  (A special URL without "//" whose
   scheme is the document's is relative; counting its first segment as a host only makes the claim stronger.) *)
Definition special_schemes : list str := [u "ftp"; u "file"; u "http"; u "https"; u "ws"; u "wss"].
Fixpoint after_last (c : N) (s : str) : str :=
  match s with [] => [] | x :: t => if mem c t then after_last c t else if x =? c then t else s end.
Definition written_host (authority : str) : option str :=
  let h := after_last 64 authority in
  match h with
  | 91 :: t => let inner := take_while (fun c => negb (c =? 93)) t in
               match drop_while (fun c => negb (c =? 93)) t with
               | 93 :: [] => Some inner
               | 93 :: 58 :: _ => Some inner
               | _ => None
               end
  | _ => if mem 91 h || mem 93 h then None else Some (take_while (fun c => negb (c =? 58)) h)
  end.
Definition ends_authority (special : bool) (c : N) : bool := (c =? 47) || (c =? 63) || (c =? 35) || (special && (c =? 92)).
Definition browser_authority (url : str) : option str :=
  match scheme_start (url_input url) with
  | Some (sch, rest) =>
    if in_strs sch special_schemes
    then Some (take_while (fun c => negb (ends_authority true c)) (drop_while slash rest))
    else match rest with
         | 47 :: 47 :: t => Some (take_while (fun c => negb (ends_authority false c)) t)
         | _ => None
         end
  | None =>
    match url_input url with
    | a :: b :: t => if slash a && slash b then Some (take_while (fun c => negb (ends_authority true c)) (drop_while slash t)) else None
    | _ => None
    end
  end.
Definition browser_host (url : str) : option str :=
  match browser_authority url with Some a => written_host a | None => None end.

(* 3.5 IPv4 number parser, restricted to "is it a number": decimal/octal digits, or 0x and hex digits (possibly none) *)
Definition ipv4_number (s : str) : bool :=
  match s with
  | [] => false
  | a :: b :: t => if (a =? 48) && ((b =? 120) || (b =? 88)) then forallb is_hex_ascii t else forallb is_digit_ascii s
  | _ => forallb is_digit_ascii s
  end.

(* HTML 4.8.4.2.2 "parse a srcset attribute": the candidate URLs.  [fuel] bounds the number of candidates. *)
Definition html_ws (c : N) : bool := (c =? 9) || (c =? 10) || (c =? 12) || (c =? 13) || (c =? 32).
Definition comma (c : N) : bool := c =? 44.
(* descriptor tokenizer: everything up to the next comma outside parentheses *)
Fixpoint skip_descriptors (in_parens : bool) (s : str) : str :=
  match s with
  | [] => []
  | c :: t => if in_parens then skip_descriptors (negb (c =? 41)) t
              else if c =? 44 then t else skip_descriptors (c =? 40) t
  end.
Fixpoint srcset_urls_go (fuel : nat) (s : str) : list str :=
  match fuel with
  | O => []
  | S k =>
    let s1 := drop_while (fun c => html_ws c || comma c) s in
    match s1 with
    | [] => []
    | _ =>
      let url := take_while (fun c => negb (html_ws c)) s1 in
      let rest := drop_while (fun c => negb (html_ws c)) s1 in
      if ends [44] url then rev (drop_while comma (rev url)) :: srcset_urls_go k rest
      else url :: srcset_urls_go k (skip_descriptors false rest)
    end
  end.
Definition srcset_urls (s : str) : list str := srcset_urls_go (List.length s) s.

(* "split a string on ASCII whitespace": a[ping], attributionsrc *)
Definition space_urls (s : str) : list str := split_by_go html_ws [] s.

(* HTML 4.2.5.3 shared declarative refresh steps: the URL, [None] if there is none (reload or invalid).
   Steps 1-10: time, separator; 11-21: the URL. *)
Definition eq_ci (c x : N) : bool := alow_c c =? x.
Definition refresh_quotes (s : str) : str :=
  match s with
  | q :: t => if (q =? 34) || (q =? 39) then take_while (fun c => negb (c =? q)) t else s
  | [] => []
  end.
(* after the separator *)
Definition refresh_url_part (s : str) : str :=
  match s with
  | a :: t1 =>
    if eq_ci a 117 then
      match t1 with
      | b :: t2 =>
        if eq_ci b 114 then
          match t2 with
          | d :: t3 =>
            if eq_ci d 108 then
              match drop_while html_ws t3 with
              | e :: t4 => if e =? 61 then refresh_quotes (drop_while html_ws t4) else s
              | [] => s
              end
            else s
          | [] => s
          end
        else s
      | [] => s
      end
    else refresh_quotes s
  | [] => []
  end.
Definition refresh_url (content : str) : option str :=
  let s := drop_while html_ws content in
  let digits := take_while is_digit_ascii s in
  let s1 := drop_while is_digit_ascii s in
  let no_time := match digits with [] => match s1 with c :: _ => negb (c =? 46) | [] => true end | _ => false end in
  if no_time then None else
  let s2 := drop_while (fun c => is_digit_ascii c || (c =? 46)) s1 in
  match s2 with
  | [] => None
  | c :: _ =>
    if negb ((c =? 59) || (c =? 44) || html_ws c) then None else
    let s3 := drop_while html_ws s2 in
    let s4 := match s3 with c :: t => if (c =? 59) || (c =? 44) then t else s3 | [] => [] end in
    match drop_while html_ws s4 with
    | [] => None
    | s5 => Some (refresh_url_part s5)
    end
  end.

(* the canonical spelling of an IPv4 address: four decimal numbers 0..255 without leading zeros *)
Definition dec_label (l : str) : Prop :=
  l <> [] /\ forallb is_digit_ascii l = true /\ (List.length l <= 3)%nat /\ (forall t, l = 48 :: t -> t = []) /\
  digits_value 10 (map (fun c => c - 48) l) <= 255.
Definition dotted_quad (h : str) : Prop := List.length (split_char 46 h) = 4%nat /\ forall l, In l (split_char 46 h) -> dec_label l.
(* labels that a URL parser takes for IPv4 numbers (the degenerate label 0x excepted) *)
Definition numeric_label (l : str) : Prop := ipv4_number l = true /\ alow l <> u "0x".
(* a host of up to four numeric labels is an IPv4 address to a browser: it must be in canonical form *)
Definition ipv4_canonical (h : str) : Prop :=
  (List.length (split_char 46 h) <= 4)%nat -> (forall l, In l (split_char 46 h) -> numeric_label l) -> dotted_quad h.
