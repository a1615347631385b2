(* SPECIFICATION (independent of /repo): the value of an ECMAScript string literal body, ECMA-262 12.9.4
   (StringLiteral, EscapeSequence, SV).  Text is a list of code points; [q] is the delimiter.
   [None]: the body is not the body of one literal (it contains the delimiter, a raw CR or LF, or a bad escape).
   Legacy octal escapes are rejected, line continuations are allowed. *)
From Verif Require Import Str.
Open Scope N_scope.

Definition hex_digit (c : N) : option N :=
  if (48 <=? c) && (c <=? 57) then Some (c - 48)
  else if (65 <=? c) && (c <=? 70) then Some (c - 55)
  else if (97 <=? c) && (c <=? 102) then Some (c - 87)
  else None.

(* The escape after a backslash: code units produced and the rest. *)
Definition js_escape (s : str) : option (str * str) :=
  match s with
  | [] => None
  | c :: t =>
    if c =? 110 then Some ([10], t)          (* \n *)
    else if c =? 114 then Some ([13], t)     (* \r *)
    else if c =? 116 then Some ([9], t)      (* \t *)
    else if c =? 98 then Some ([8], t)       (* \b *)
    else if c =? 102 then Some ([12], t)     (* \f *)
    else if c =? 118 then Some ([11], t)     (* \v *)
    else if c =? 120 then                    (* \xHH *)
      match t with
      | a :: b :: t' => match hex_digit a, hex_digit b with Some x, Some y => Some ([16 * x + y], t') | _, _ => None end
      | _ => None
      end
    else if c =? 117 then                    (* \uHHHH; \u{...} is not needed here and rejected *)
      match t with
      | a :: b :: d :: e :: t' =>
        match hex_digit a, hex_digit b, hex_digit d, hex_digit e with
        | Some x, Some y, Some z, Some w => Some ([4096 * x + 256 * y + 16 * z + w], t')
        | _, _, _, _ => None
        end
      | _ => None
      end
    else if (c =? 10) || (c =? 13) || (c =? 8232) || (c =? 8233) then Some ([], t)   (* line continuation *)
    else if (48 <=? c) && (c <=? 57) then None
    else Some ([c], t)                        (* NonEscapeCharacter or a quote or a backslash *)
  end.

(* fuel = length of the input is always enough: every step consumes a character *)
Fixpoint js_eval_go (fuel : nat) (q : N) (s : str) : option str :=
  match fuel with
  | O => match s with [] => Some [] | _ => None end
  | S k =>
    match s with
    | [] => Some []
    | c :: t =>
      if c =? q then None
      else if (c =? 10) || (c =? 13) then None
      else if c =? 92 then
        match js_escape t with
        | Some (v, t') => option_map (app v) (js_eval_go k q t')
        | None => None
        end
      else option_map (cons c) (js_eval_go k q t)
    end
  end.
Definition js_eval (q : N) (body : str) : option str := js_eval_go (List.length body) q body.
