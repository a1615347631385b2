(* SPECIFICATION (independent of /repo): UTF-8 (RFC 3629) and percent-decoding (RFC 3986, 2.1). *)
From Verif Require Import Str JsSpec.
Open Scope N_scope.

(* a Unicode scalar value: not a surrogate *)
Definition scalar (c : N) : bool := (c <? 55296) || ((57344 <=? c) && (c <? 1114112)).

(* Decode one UTF-8 sequence: value and rest; overlong forms, surrogates and bad continuation bytes are rejected. *)
Definition cont (b : N) : bool := (128 <=? b) && (b <? 192).
Definition utf8_decode1 (s : list N) : option (N * list N) :=
  match s with
  | [] => None
  | a :: t =>
    if a <? 128 then Some (a, t)
    else if (194 <=? a) && (a <? 224) then
      match t with b :: t' => if cont b then Some ((a - 192) * 64 + (b - 128), t') else None | _ => None end
    else if (224 <=? a) && (a <? 240) then
      match t with
      | b :: c :: t' => let v := (a - 224) * 4096 + (b - 128) * 64 + (c - 128) in
          if cont b && cont c && (2048 <=? v) && scalar v then Some (v, t') else None
      | _ => None end
    else if (240 <=? a) && (a <? 245) then
      match t with
      | b :: c :: d :: t' => let v := (a - 240) * 262144 + (b - 128) * 4096 + (c - 128) * 64 + (d - 128) in
          if cont b && cont c && cont d && (65536 <=? v) && scalar v then Some (v, t') else None
      | _ => None end
    else None
  end.
Fixpoint utf8_decode_go (fuel : nat) (s : list N) : option str :=
  match fuel with
  | O => match s with [] => Some [] | _ => None end
  | S k => match s with
           | [] => Some []
           | _ => match utf8_decode1 s with Some (c, t) => option_map (cons c) (utf8_decode_go k t) | None => None end
           end
  end.
Definition utf8_decode (s : list N) : option str := utf8_decode_go (List.length s) s.

(* "%XX" is one byte; other characters (ASCII only) stand for themselves *)
Fixpoint percent_decode (s : str) : option (list N) :=
  match s with
  | [] => Some []
  | c :: t =>
    if c =? 37 then
      match t with
      | a :: b :: t' => match hex_digit a, hex_digit b with
                        | Some x, Some y => option_map (cons (16 * x + y)) (percent_decode t') | _, _ => None end
      | _ => None
      end
    else if c <? 128 then option_map (cons c) (percent_decode t) else None
  end.
