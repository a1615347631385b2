(* MODEL of /repo/src/justhtml/core/entities.py (character reference decoding).
   report_error callbacks are not modelled (they do not influence the result). *)
From Verif Require Import Str EntityTable.
Open Scope N_scope.

(* entities.py:21-28  NAMED_ENTITIES: the html5 table with a trailing ';' removed from the keys.  A dict keeps the
   last value written for a key; the lookup takes the first: the values agree (EntitiesProofs.named_keys_agree). *)
Definition strip_semi (k : str) : str := if ends [59] k then firstn (List.length k - 1) k else k.
Definition named_entities : list (str * str) := Eval vm_compute in map (fun p => (strip_semi (fst p), snd p)) html5_table.

(* entities.py:30, 144: the two maxima *)
Definition max_len (l : list str) : nat := fold_left (fun a k => Nat.max a (List.length k)) l O.
Definition max_named_entity_length : nat := Eval vm_compute in max_len (map fst named_entities).
Definition max_legacy_entity_length : nat := Eval vm_compute in max_len legacy_entities.

(* entities.py:147-177 NUMERIC_REPLACEMENTS *)
Definition numeric_replacements : list (N * N) :=
  [(0,65533);
   (128,8364);(130,8218);(131,402);(132,8222);(133,8230);(134,8224);(135,8225);(136,710);(137,8240);
   (138,352);(139,8249);(140,338);(142,381);(145,8216);(146,8217);(147,8220);(148,8221);(149,8226);
   (150,8211);(151,8212);(152,732);(153,8482);(154,353);(155,8250);(156,339);(158,382);(159,376)].

(* int(ch) of one decimal digit character / hexadecimal digit, Python int(); None = ValueError *)
Fixpoint decimal_digit_value_in (l : list (N * N)) (c : N) : option N :=
  match l with
  | [] => None
  | (lo, hi) :: t => if (lo <=? c) && (c <=? hi) then Some ((c - lo) mod 10) else decimal_digit_value_in t c
  end.
Definition py_digit (hex : bool) (c : N) : option N :=
  match decimal_digit_value_in decimal_ranges c with
  | Some d => Some d
  | None => if hex then
              if (65 <=? c) && (c <=? 70) then Some (c - 55)
              else if (97 <=? c) && (c <=? 102) then Some (c - 87) else None
            else None
  end.
Fixpoint py_int (hex : bool) (acc : N) (s : str) : option N :=
  match s with
  | [] => Some acc
  | c :: t => match py_digit hex c with
              | Some d => py_int hex (acc * (if hex then 16 else 10) + d) t
              | None => None
              end
  end.

(* entities.py:192-235 decode_numeric_entity; None = ValueError raised by int() *)
Definition decode_numeric_entity (text : str) (is_hex : bool) : option str :=
  let stripped := drop_while (fun c => c =? 48) text in
  let digits := match stripped with [] => [48] | _ => stripped end in
  if Nat.ltb 16 (List.length digits) then Some [65533]
  else match py_int is_hex 0 digits with
       | None => None
       | Some codepoint =>
         if 1114111 <? codepoint then Some [65533]
         else if (55296 <=? codepoint) && (codepoint <=? 57343) then Some [65533]
         else match List.find (fun p => fst p =? codepoint) numeric_replacements with
              | Some p => Some [snd p]
              | None => Some [codepoint]
              end
       end.

(* entities.py:328-333, 363-368: for k in range(min(entity_length, max), 0, -1): longest legacy prefix *)
Fixpoint legacy_prefix (t : str) (k : nat) : option (str * nat) :=
  match k with
  | O => None
  | S k' =>
    let prefix := firstn k t in
    if in_strs prefix legacy_entities then
      match assoc prefix named_entities with
      | Some v => Some (v, k)
      | None => legacy_prefix t k'
      end
    else legacy_prefix t k'
  end.

Inductive ent_result :=
| EntRaise                              (* ValueError escapes *)
| EntOk (appended : str) (n : nat).     (* what is appended to result; characters consumed after the '&' *)

Definition semi (t : str) : bool := match t with c :: _ => c =? 59 | [] => false end.

(* entities.py:275-306, numeric references; [t] is text[i+1:], [t1] is text[i+2:] (text[i+1] = '#') *)
Definition entity_numeric (t t1 : str) : ent_result :=
  let is_hex := match t1 with x :: _ => (x =? 120) || (x =? 88) | [] => false end in
  let t2 := if is_hex then tl t1 else t1 in
  let p := if is_hex then is_hex_ascii else is_digit in
  let digit_text := take_while p t2 in
  let after := drop_while p t2 in
  let n0 := (1 + (if is_hex then 1 else 0) + List.length digit_text)%nat in
  let n := (if semi after then S n0 else n0) in
  match digit_text with
  | [] => EntOk (38 :: firstn n t) n
  | _ => match decode_numeric_entity digit_text is_hex with
         | Some s => EntOk s n
         | None => EntRaise
         end
  end.

(* entities.py:308-395, named references; [t] is text[i+1:] *)
Definition isname (c : N) : bool := is_alpha c || is_digit c.
Definition entity_named (in_attribute : bool) (t : str) : ent_result :=
  let run := take_while isname t in
  let after := drop_while isname t in
  let entity_length := List.length run in
  let entity_name := if Nat.leb entity_length max_named_entity_length then run else [] in
  let has_semicolon := semi after in
  match run with
  | [] => EntOk [38] O
  | _ =>
    match (if has_semicolon then assoc entity_name named_entities else None) with
    | Some v => EntOk v (S entity_length)
    | None =>
      let best := legacy_prefix t (Nat.min entity_length max_legacy_entity_length) in
      match (if has_semicolon && negb in_attribute then best else None) with
      | Some (v, k) => EntOk v k
      | None =>
        match (if in_strs entity_name legacy_entities then assoc entity_name named_entities else None) with
        | Some v =>
          if in_attribute && match after with c :: _ => is_alnum c || (c =? 61) | [] => false end
          then EntOk [38] O
          else EntOk v entity_length
        | None =>
          match best with
          | Some (v, k) => if in_attribute then EntOk [38] O else EntOk v k
          | None =>
            if has_semicolon then EntOk (38 :: firstn (S entity_length) t) (S entity_length)
            else EntOk [38] O
          end
        end
      end
    end
  end.

(* entities.py:270-395, the loop body once text[i] = '&'; [t] is text[i+1:] *)
Definition entity_step (in_attribute : bool) (t : str) : ent_result :=
  match t with
  | c :: t1 => if c =? 35 then entity_numeric t t1 else entity_named in_attribute t
  | [] => EntOk [38] O
  end.

(* entities.py:238-398 decode_entities_in_text; the while loop as recursion over the text with a count of
   characters already consumed.  None = ValueError. *)
Fixpoint decode_go (in_attribute : bool) (skip : nat) (s : str) : option str :=
  match s with
  | [] => Some []
  | c :: t =>
    match skip with
    | S k => decode_go in_attribute k t
    | O =>
      if c =? 38 then
        match entity_step in_attribute t with
        | EntRaise => None
        | EntOk w n => option_map (app w) (decode_go in_attribute n t)
        end
      else option_map (cons c) (decode_go in_attribute O t)
    end
  end.
Definition decode_entities_in_text (text : str) (in_attribute : bool) : option str :=
  decode_go in_attribute O text.
