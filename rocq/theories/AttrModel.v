(* MODEL of the attribute parsers of parser/engine.py:6177-6441 (6320-6441 and its inlined copy 3131-3257 have the same loop).
   The input is the part of the html from `pos` on; the position returned is given as the rest of the input.
   Simplification: the loops first collect the pairs of raw name and raw value and then treat them one by one (the Python loops do both in
   one pass; what a pair becomes has no influence on the scanning).  None: decode_entities_in_text raises ValueError. *)
From Verif Require Import Str EntitiesModel.
Open Scope N_scope.

(* engine.py: _SPACE, _ATTR_NAME_STOP, _ATTR_VALUE_STOP (scanner.py:3-9 plus CR) *)
Definition space (c : N) : bool := mem c [32; 9; 10; 12; 13].
Definition name_stop (c : N) : bool := mem c [9; 10; 12; 13; 32; 47; 62; 61].
Definition value_stop (c : N) : bool := mem c [32; 9; 10; 12; 13; 62].

Record scanned := Scanned { pairs : list (str * str); self_closing : bool; rest : str; tag_closed : bool }.
(* engine.py:6251-6270: after the = of an attribute.  The raw value and the rest; None: the quote is not closed *)
Definition read_value (s : str) : option (str * str) :=
  let s := drop_while space s in
  match s with
  | q :: t =>
    if (q =? 34) || (q =? 39) then
      match find_char q t with None => None | Some close => Some (firstn close t, skipn (close + 1) t) end
    else Some (take_while (fun c => negb (value_stop c)) s, drop_while (fun c => negb (value_stop c)) s)
  | [] => Some ([], [])
  end.
(* engine.py:6224-6270 (6182-6213; 6339-6404 with skip_equals): the while loop.  skip_equals: an = where a name is expected is skipped like a / .
   fuel: each turn consumes a character, fuel 0 does not happen (lemma scan_run in AttrProofs) *)
Fixpoint scan (skip_equals : bool) (fuel : nat) (acc : list (str * str)) (s : str) : scanned :=
  match fuel with
  | O => Scanned acc false s false
  | S fuel =>
    match drop_while space s with
    | [] => Scanned acc false [] false
    | ch :: t =>
      if ch =? 62 then Scanned acc false t true
      else if (ch =? 47) && starts [62] t then Scanned acc true (tl t) true
      else if (ch =? 47) || (skip_equals && (ch =? 61)) then scan skip_equals fuel acc t
      else
        let raw_key := ch :: take_while (fun c => negb (name_stop c)) t in
        let s1 := drop_while space (drop_while (fun c => negb (name_stop c)) t) in
        match s1 with
        | e :: s2 =>
          if e =? 61 then
            match read_value s2 with
            | None => Scanned acc false [] false
            | Some (v, s3) => scan skip_equals fuel (acc ++ [(raw_key, v)])%list s3
            end
          else scan skip_equals fuel (acc ++ [(raw_key, [])])%list s1
        | [] => scan skip_equals fuel (acc ++ [(raw_key, [])])%list s1
        end
    end
  end.
Definition scan_attrs (skip_equals : bool) (s : str) : scanned := scan skip_equals (S (List.length s)) [] s.

(* engine.py:6242-6245 *)
Definition fold_key (strict : bool) (raw_key : str) : str := replace_char 0 [65533] (if strict then alow raw_key else lower raw_key).
(* engine.py:6274-6275; 6376-6377 *)
Definition decoded_value (v : str) : option str := if mem 38 v then decode_entities_in_text v true else Some v.
(* engine.py:6272-6277 *)
Definition parsed_value (v : str) : option str :=
  let v := replace_char 13 [10] (replace [13; 10] [10] v) in
  option_map (replace_char 0 [65533]) (decoded_value v).
Definition has_key (k : str) (attrs : list (str * str)) : bool := existsb (fun p => str_eqb k (fst p)) attrs.
(* engine.py:6278-6279, with 6272-6277 *)
Fixpoint store_all (strict : bool) (attrs : list (str * str)) (ps : list (str * str)) : option (list (str * str)) :=
  match ps with
  | [] => Some attrs
  | (k, v) :: ps =>
    match parsed_value v with
    | None => None
    | Some v => store_all strict (if has_key (fold_key strict k) attrs then attrs else attrs ++ [(fold_key strict k, v)])%list ps
    end
  end.
(* engine.py:6216-6280 _parse_all_attrs: attributes, self-closing flag, rest, closed *)
Definition parse_all_attrs (strict : bool) (s : str) : option (list (str * str) * bool * str * bool) :=
  let r := scan_attrs false s in
  option_map (fun a => (a, self_closing r, rest r, tag_closed r)) (store_all strict [] (pairs r)).
(* engine.py:6177-6214 _skip_attrs *)
Definition skip_attrs (s : str) : bool * str * bool := let r := scan_attrs false s in (self_closing r, rest r, tag_closed r).

(* engine.py:411-436 TagAction, what the attribute parsers use of it.  url: what the rules for URL attributes make of a value (None: the
   attribute is dropped): url_attrs with 6299-6316; modelled in UrlModel.v, here any function *)
Record action := Action { allowed : list str; state_attrs : list str; preserve_state : bool; url : str -> str -> option str }.
(* engine.py:6295-6297 strip: the policy removes invisible characters; any function *)
(* engine.py:6281-6318 _sanitize_parsed_attrs for an allowed tag *)
Fixpoint sanitize_parsed (strip : str -> str) (a : action) (attrs : list (str * str)) : list (str * str) :=
  match attrs with
  | [] => []
  | (k, v) :: t =>
    if in_strs k (allowed a) then
      match url a k (strip v) with None => sanitize_parsed strip a t | Some v => (k, v) :: sanitize_parsed strip a t end
    else sanitize_parsed strip a t
  end.
(* d[k] = v of a Python dict *)
Fixpoint put (k v : str) (d : list (str * str)) : list (str * str) :=
  match d with [] => [(k, v)] | (k', v') :: t => if str_eqb k k' then (k, v) :: t else (k', v') :: put k v t end.
(* engine.py:6355-6372: the key, whether it is kept for the output, whether for the parser's state *)
Definition classify (strict : bool) (a : action) (raw_key : str) : str * bool * bool :=
  if in_strs raw_key (allowed a) then (raw_key, true, preserve_state a)
  else let key := fold_key strict raw_key in (key, in_strs key (allowed a), preserve_state a || in_strs key (state_attrs a)).
(* engine.py:6374-6441: the pairs, in order *)
Fixpoint fused_store (strict : bool) (strip : str -> str) (a : action) (attrs ps : list (str * str)) : option (list (str * str)) :=
  match ps with
  | [] => Some attrs
  | (k, v) :: ps =>
    let '(key, keep_output, keep_state) := classify strict a k in
    if negb keep_output && negb keep_state then fused_store strict strip a attrs ps
    else match decoded_value v with
         | None => None
         | Some v =>
           if keep_state && negb keep_output then fused_store strict strip a (put key v attrs) ps
           else match url a key (strip v) with
                | None => fused_store strict strip a attrs ps
                | Some v => fused_store strict strip a (put key v attrs) ps
                end
         end
  end.
(* engine.py:6320-6441 _parse_attrs_for_action, for an action with scan_attrs *)
Definition parse_attrs_for_action (strict : bool) (strip : str -> str) (a : action) (s : str) : option (list (str * str) * bool * str * bool) :=
  let r := scan_attrs true s in
  option_map (fun d => (d, self_closing r, rest r, tag_closed r)) (fused_store strict strip a [] (pairs r)).
