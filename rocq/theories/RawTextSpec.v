(* SPECIFICATION (independent of /repo): when raw text ends an element, stated on plain text.
   13.2.5.14 and 13.2.5.17: "</" + the element's name (any ASCII case) + one of whitespace, '/', '>'. *)
From Verif Require Import Str.
Open Scope N_scope.

(* tab, LF, FF, space, '/', '>'; CR counts too because preprocessing turns it into LF *)
Definition ends_name (c : N) : bool := mem c [9; 10; 12; 13; 32; 47; 62].

(* [t] contains an end tag for [name] *)
Definition closes (name t : str) : Prop :=
  exists a buf c b, t = (a ++ 60 :: 47 :: buf ++ c :: b)%list /\ alow buf = name /\ ends_name c = true.

(* [t] contains "<!--" and, after it, a script start tag: this is what makes a browser enter the
   "script data double escaped" state, in which "</script>" does not end the element. *)
Definition hides_script_end (t : str) : Prop :=
  exists a b buf c d,
    t = (a ++ u "<!--" ++ b ++ 60 :: buf ++ c :: d)%list /\ alow buf = u "script" /\ ends_name c = true.

(* [t] contains "</name", in any ASCII case, followed by anything or nothing *)
Definition occurs_end (name t : str) : Prop :=
  exists a buf b, t = (a ++ 60 :: 47 :: buf ++ b)%list /\ alow buf = name.
