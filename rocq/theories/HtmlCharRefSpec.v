(* SPECIFICATION (independent of /repo): WHATWG HTML character references, sections 13.2.5.72-13.2.5.80.
   The named table is the standard's table (EntityTable.html5_table, data). *)
From Verif Require Import Str EntityTable.
Open Scope N_scope.

(* 13.2.5.80 numeric character reference end state: the table for 0x80-0x9F *)
Definition c1_table : list (N * N) :=
  [(128,8364);(130,8218);(131,402);(132,8222);(133,8230);(134,8224);(135,8225);(136,710);(137,8240);
   (138,352);(139,8249);(140,338);(142,381);(145,8216);(146,8217);(147,8220);(148,8221);(149,8226);
   (150,8211);(151,8212);(152,732);(153,8482);(154,353);(155,8250);(156,339);(158,382);(159,376)].

Definition numeric_char (code : N) : N :=
  if code =? 0 then 65533
  else if 1114111 <? code then 65533
  else if (55296 <=? code) && (code <=? 57343) then 65533
  else match List.find (fun p => fst p =? code) c1_table with Some p => snd p | None => code end.

Definition hexval (c : N) : N :=
  if is_digit_ascii c then c - 48 else if is_upper_ascii c then c - 55 else c - 87.
Definition decval (c : N) : N := c - 48.

(* 13.2.5.73: consume the maximum number of characters possible that are an identifier of the table *)
Definition longest_named (rest : str) : option (str * str) :=
  fold_left (fun best e =>
    if starts (fst e) rest
    then match best with
         | Some b => if Nat.ltb (List.length (fst b)) (List.length (fst e)) then Some e else best
         | None => Some e
         end
    else best) html5_table None.

Definition semi_len (rest : str) : nat :=
  match rest with c :: _ => if c =? 59 then 1%nat else O | [] => O end.

(* after "&#" *)
Definition charref_numeric (r : str) : option (str * nat) :=
  let is_hex := match r with x :: _ => (x =? 120) || (x =? 88) | [] => false end in
  if is_hex then
    let h := tl r in
    let ds := take_while is_hex_ascii h in
    match ds with
    | [] => None
    | _ => Some ([numeric_char (digits_value 16 (map hexval ds))],
                 (2 + List.length ds + semi_len (drop_while is_hex_ascii h))%nat)
    end
  else
    let ds := take_while is_digit_ascii r in
    match ds with
    | [] => None
    | _ => Some ([numeric_char (digits_value 10 (map decval ds))],
                 (1 + List.length ds + semi_len (drop_while is_digit_ascii r))%nat)
    end.

(* 13.2.5.73; in an attribute a reference without ';' that is followed by '=' or an alphanumeric is left alone *)
Definition charref_named (in_attribute : bool) (rest : str) : option (str * nat) :=
  match longest_named rest with
  | None => None
  | Some (name, val) =>
    let next := nth_error rest (List.length name) in
    if in_attribute && negb (ends [59] name)
       && match next with Some c => (c =? 61) || is_alnum_ascii c | None => false end
    then None
    else Some (val, List.length name)
  end.

(* [charref in_attribute rest]: the '&' has been consumed and [rest] follows.  [Some (chars, n)]: the reference
   yields [chars] and consumes [n] more characters.  [None]: not a reference; the characters seen so far are
   flushed unchanged, which is the same as emitting '&' and going on with [rest] in the return state (none of
   the flushed characters is special in any return state: they are '#', 'x', alphanumerics). *)
Definition charref (in_attribute : bool) (rest : str) : option (str * nat) :=
  match rest with
  | c :: r => if c =? 35 then charref_numeric r else charref_named in_attribute rest
  | [] => None
  end.

(* The text a run of characters without markup decodes to. *)
Fixpoint decode_spec_go (in_attribute : bool) (skip : nat) (s : str) : str :=
  match s with
  | [] => []
  | c :: t =>
    match skip with
    | S k => decode_spec_go in_attribute k t
    | O => if c =? 38 then
             match charref in_attribute t with
             | Some (v, n) => (v ++ decode_spec_go in_attribute n t)%list
             | None => c :: decode_spec_go in_attribute O t
             end
           else c :: decode_spec_go in_attribute O t
    end
  end.
Definition decode_spec (in_attribute : bool) (s : str) : str := decode_spec_go in_attribute O s.
