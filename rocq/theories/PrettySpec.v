(* SPECIFICATION: comparing token streams up to white space.  Nothing of the serializer is used. *)
From Verif Require Import Str HtmlTokSpec RawTextSpec SerializerModel SerTreeSpec.
Open Scope list_scope. Open Scope N_scope.

(* the elements in which white space is kept as it is *)
Definition keeps_space (name : str) : Prop := In name [u "code"; u "pre"; u "script"; u "style"; u "textarea"].
Definition keeps_spaceb (name : str) : bool := in_strs name [u "code"; u "pre"; u "script"; u "style"; u "textarea"].

(* The token stream without the white space (in Python's sense) that is outside those elements; [depth] counts the
   open ones. *)
Fixpoint settled (depth : nat) (ts : list token) : list token :=
  match ts with
  | [] => []
  | t :: ts =>
    match t with
    | TStart name _ _ => t :: settled (if keeps_spaceb name then S depth else depth) ts
    | TEnd name => t :: settled (if keeps_spaceb name then pred depth else depth) ts
    | TChar c => if Nat.eqb depth 0 && is_space c then settled depth ts else t :: settled depth ts
    | _ => t :: settled depth ts
    end
  end.

(* tags, comments and doctypes only *)
Definition markup (ts : list token) : list token := filter (fun t => match t with TChar _ => false | _ => true end) ts.

(* [within m n]: the node m is n, or inside it *)
Inductive within (m : node) : node -> Prop :=
| w_self : within m m
| w_document c cs : In c cs -> within m c -> within m (NDocument cs)
| w_child c name ns attrs cs tc : In c cs -> within m c -> within m (NElem name ns attrs cs tc)
| w_template c name ns attrs cs l : In c l -> within m c -> within m (NElem name ns attrs cs (Some l)).

(* no iframe, noembed, noframes or xmp element mentions its own end tag in its text *)
Definition quiet (n : node) : Prop := forall name ns attrs d tc,
  In name [u "iframe"; u "noembed"; u "noframes"; u "xmp"] -> within (NElem name ns attrs [NText d] tc) n -> ~ occurs_end name d.

(* a document occurs only as the root *)
Definition no_document (n : node) : Prop := forall cs, ~ within (NDocument cs) n.
Definition document_on_top (n : node) : Prop :=
  match n with NDocument cs => forall c, In c cs -> no_document c | _ => no_document n end.
