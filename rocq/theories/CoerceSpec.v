(* What cleaned text should look like.  Independent of the model.
   HTML standard: Infra "normalize newlines"; XML 1.0, 2.2 Char, 2.5 Comments, 2.6 PI; The Unicode standard: noncharacters and UTF-16. *)
From Coq Require Import NArith List.
Import ListNotations.
Open Scope N_scope.

(* Infra: replace every CR LF pair by LF, then every remaining CR by LF *)
Inductive normalized : list N -> list N -> Prop :=
  | N_nil : normalized [] []
  | N_crlf s r : normalized s r -> normalized (13 :: 10 :: s) (10 :: r)
  | N_cr s r : (forall t, s <> 10 :: t) -> normalized s r -> normalized (13 :: s) (10 :: r)
  | N_char c s r : c <> 13 -> normalized s r -> normalized (c :: s) (c :: r).

(* XML 1.0: Char *)
Definition xml_char (c : N) : Prop :=
  c = 9 \/ c = 10 \/ c = 13 \/ (32 <= c /\ c <= 55295) \/ (57344 <= c /\ c <= 65533) \/ (65536 <= c /\ c <= 1114111).
(* Unicode: the 66 noncharacters *)
Definition nonchar (c : N) : Prop := (64976 <= c /\ c <= 65007) \/ (c <= 1114111 /\ (c mod 65536 = 65534 \/ c mod 65536 = 65535)).
Definition control (c : N) : Prop := c < 32 /\ c <> 9 /\ c <> 10 /\ c <> 12 /\ c <> 13.
Definition surrogate (c : N) : Prop := 55296 <= c /\ c <= 57343.

(* text coerced for XML: form feeds become spaces, noncharacters U+FFFD, everything else stays *)
Inductive coerced : N -> N -> Prop :=
  | C_ff : coerced 12 32
  | C_non c : nonchar c -> coerced c 65533
  | C_same c : c <> 12 -> ~ nonchar c -> coerced c c.

(* XML 1.0, 2.5: a comment contains no "--" and does not end in "-" *)
Definition xml_comment (d : list N) : Prop := (forall a b, d <> a ++ [45; 45] ++ b)%list /\ (forall a, d <> a ++ [45])%list.

(* Unicode: UTF-16 *)
Definition utf16_char (c : N) : list N := if 65536 <=? c then [55296 + (c - 65536) / 1024; 56320 + (c - 65536) mod 1024] else [c].
Definition utf16 (s : list N) : list N := flat_map utf16_char s.
Definition no_pair (s : list N) : Prop := forall a h l b, s = (a ++ h :: l :: b)%list -> 55296 <= h -> h <= 56319 -> 56320 <= l -> l <= 57343 -> False.

(* Processing instructions.  A target is an ASCII letter or underscore followed by letters, digits, '-' and '_', and does not begin with "xml" in any case.
   [instruction content data]: what stands between <? and the next > is the target, optional white space, the data, and an optional closing '?';
   without white space only a '?' may follow the target.  The node keeps the target, one space and the data. *)
Definition letter (c : N) : Prop := (65 <= c /\ c <= 90) \/ (97 <= c /\ c <= 122).
Definition name_char (c : N) : Prop := c = 95 \/ c = 45 \/ letter c \/ (48 <= c /\ c <= 57).
Definition target (t : list N) : Prop :=
  (exists c r, t = c :: r /\ (c = 95 \/ letter c) /\ Forall name_char r) /\
  ~ (exists x m l r, t = x :: m :: l :: r /\ (x = 88 \/ x = 120) /\ (m = 77 \/ m = 109) /\ (l = 76 \/ l = 108)).
Definition white (c : N) : Prop := c = 9 \/ c = 10 \/ c = 12 \/ c = 13 \/ c = 32.
Inductive instruction : list N -> list N -> Prop :=
  | Instr t gap data close : target t -> Forall white gap -> (forall c r, data = c :: r -> ~ white c) ->
      close = [] \/ close = [63] -> (close = [] -> forall r, data <> r ++ [63])%list ->
      (gap = [] -> (data ++ close = [])%list \/ exists r, (data ++ close = 63 :: r)%list) ->
      instruction (t ++ gap ++ data ++ close)%list (t ++ [32] ++ data)%list.
