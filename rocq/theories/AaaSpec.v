(* SPECIFICATION for C62: the adoption agency algorithm of https://html.spec.whatwg.org/multipage/parsing.html#adoption-agency-algorithm,
   on lists, without indices.  The stack grows to the right; a tree operation is named, not carried out. *)
From Coq Require Import List Arith Bool String.
From Verif Require Import Str.
From Verif Require Import AaaModel.
Import ListNotations.
Open Scope string_scope. Open Scope list_scope. Open Scope nat_scope.

(* the list of active formatting elements; token: the token an element was created for; Bookmark: a position *)
Inductive item := Marker | El (x : nat) (name : str) (token : nat) | Bookmark.
Record std := Std { d_stack : list nat; d_list : list item; d_tags : nat -> tag; d_next : nat; d_ops : list op }.
Definition is_el (x : nat) (i : item) : bool := match i with El y _ _ => y =? x | _ => false end.
Definition is_bookmark (i : item) : bool := match i with Bookmark => true | _ => false end.
Definition listed (x : nat) (l : list item) : option (str * nat) := match List.find (is_el x) l with Some (El _ n k) => Some (n, k) | _ => None end.
Definition without (x : nat) (l : list item) : list item := filter (fun i => negb (is_el x i)) l.
Definition replaced (x : nat) (new : item) (l : list item) : list item := map (fun i => if is_el x i then new else i) l.
Definition after (x : nat) (new : item) (l : list item) : list item := flat_map (fun i => if is_el x i then [i; new] else [i]) l.
Definition no_bookmark (l : list item) : list item := filter (fun i => negb (is_bookmark i)) l.
(* "the last element in the list that is between the end of the list and the last marker (or the start) and has the tag name subject"; the list back to front *)
Fixpoint last_named (subject : str) (back : list item) : option (nat * str * nat) :=
  match back with
  | [] | Marker :: _ => None
  | El x n k :: t => if str_eqb n subject then Some (x, n, k) else last_named subject t
  | Bookmark :: t => last_named subject t
  end.
(* what is below and above an element of the stack *)
Fixpoint cut_at (x : nat) (l : list nat) : option (list nat * list nat) :=
  match l with [] => None | y :: t => if y =? x then Some ([], t) else match cut_at x t with Some (a, b) => Some (y :: a, b) | None => None end end.
Fixpoint cut_first (p : nat -> bool) (l : list nat) : option (list nat * nat * list nat) :=
  match l with [] => None | y :: t => if p y then Some ([], y, t) else match cut_first p t with Some (a, x, b) => Some (y :: a, x, b) | None => None end end.

Definition is_html (t : tag) : bool := match snd t with Html => true | _ => false end.
Section aaa.
Variables special boundary : tag -> bool.
(* step 4.13, the elements between the formatting element and the furthest block from the furthest block down.  kept: the new elements, in the order of the stack *)
Fixpoint walk_up (todo : list nat) (counter : nat) (fb last : nat) (kept : list nat) (l : list item) (tg : nat -> tag) (next : nat) (o : list op) : nat * list nat * list item * (nat -> tag) * nat * list op :=
  match todo with
  | [] => (last, kept, l, tg, next, o)
  | x :: todo =>
    let l := if 3 <? S counter then without x l else l in
    match listed x l with
    | None => walk_up todo (S counter) fb last kept l tg next o
    | Some (name, token) =>
      let l := replaced x (El next name token) l in
      let l := if last =? fb then after next Bookmark (no_bookmark l) else l in
      walk_up todo (S counter) fb next (next :: kept) l (FinishModel.upd tg next (name, Html)) (S next) (o ++ [New next name token; Move last next])
    end
  end.
(* how it ends: Done, or act as for any other end tag, or the eight rounds are used up *)
Inductive outcome := Done (s : std) | AnyOther (s : std) | Exhausted (s : std).
Fixpoint std_rounds (n : nat) (subject : str) (s : std) : outcome :=
  match n with
  | O => Exhausted s
  | S n =>
    match last_named subject (rev (d_list s)) with
    | None => AnyOther s
    | Some (fe, name, token) =>
      match cut_at fe (d_stack s) with
      | None => Done (Std (d_stack s) (without fe (d_list s)) (d_tags s) (d_next s) (d_ops s))
      | Some (lower, above) =>
        if existsb (fun x => boundary (d_tags s x)) above then Done s
        else
          match cut_first (fun x => special (d_tags s x)) above with
          | None => Done (Std lower (without fe (d_list s)) (d_tags s) (d_next s) (d_ops s))
          | Some (between, fb, top) =>
            let '(lst, kept, l, tg, nx, o) := walk_up (rev between) 0 fb fb [] (after fe Bookmark (d_list s)) (d_tags s) (d_next s) (d_ops s) in
            let new := nx in
            let l := map (fun i => if is_bookmark i then El new name token else i) (without fe l) in
            std_rounds n subject (Std (lower ++ kept ++ [fb; new] ++ top) l (FinishModel.upd tg new (name, Html)) (S nx)
              (o ++ [Place lst (List.last lower 0); New new name token; MoveAll fb new; Append fb new]))
          end
      end
    end
  end.
(* steps 1-3 *)
Definition std_adoption_agency (subject : str) (s : std) : outcome :=
  match rev (d_stack s) with
  | x :: t => if str_eqb (fst (d_tags s x)) subject && is_html (d_tags s x) && (match listed x (d_list s) with None => true | Some _ => false end)
              then Done (Std (rev t) (d_list s) (d_tags s) (d_next s) (d_ops s)) else std_rounds 8 subject s
  | [] => std_rounds 8 subject s
  end.
End aaa.
(* what the engine's list stands for *)
Definition live (l : list slot) : list item := flat_map (fun s => match s with None => [Marker] | Some e => if e_live e then [El (e_node e) (e_name e) (e_token e)] else [] end) l.
Definition nodes (l : list item) : list nat := flat_map (fun i => match i with El x _ _ => [x] | _ => [] end) l.

Definition standing (s : st) : std := Std (stack s) (live (active s)) (tags s) (next s) (ops s).
(* the elements that are in both lists are there in the same order *)
Definition same_order (u q : list nat) : Prop := filter (fun x => FinishModel.mem x q) u = filter (fun x => FinishModel.mem x u) q.
(* a state in which the algorithm can be invoked: no element is twice on the stack or twice in the list, new elements are new, an element is above another one
   on the stack if it is after it in the list, and the bottom of the stack (the root) is not a formatting element *)
Record proper (s : st) : Prop := Proper {
  p_stack : NoDup (stack s); p_list : NoDup (nodes (live (active s)));
  p_fresh : forall x, In x (stack s) \/ In x (nodes (live (active s))) -> x < next s;
  p_order : same_order (stack s) (nodes (live (active s)));
  p_root : match stack s with [] => True | x :: _ => ~ In x (nodes (live (active s))) end }.
(* the same tree operations, stack and elements *)
Definition agree (s : st) (d : std) : Prop := stack s = d_stack d /\ tags s = d_tags d /\ next s = d_next d /\ ops s = d_ops d.
(* one entry of the first list stands further to the back in the second *)
Definition one_later (l l' : list item) : Prop := exists p x m q, l = p ++ x :: m ++ q /\ l' = p ++ m ++ x :: q.

(* https://html.spec.whatwg.org/multipage/parsing.html#special, #has-an-element-in-scope *)
Definition names (l : list string) (t : tag) : bool := existsb (fun n => str_eqb (fst t) (u n)) l.
Definition std_special (t : tag) : bool :=
  match snd t with
  | Html => names ["address"; "applet"; "area"; "article"; "aside"; "base"; "basefont"; "bgsound"; "blockquote"; "body"; "br"; "button"; "caption"; "center"; "col"; "colgroup"; "dd"; "details"; "dir"; "div"; "dl"; "dt"; "embed"; "fieldset"; "figcaption"; "figure"; "footer"; "form"; "frame"; "frameset"; "h1"; "h2"; "h3"; "h4"; "h5"; "h6"; "head"; "header"; "hgroup"; "hr"; "html"; "iframe"; "img"; "input"; "keygen"; "li"; "link"; "listing"; "main"; "marquee"; "menu"; "meta"; "nav"; "noembed"; "noframes"; "noscript"; "object"; "ol"; "p"; "param"; "plaintext"; "pre"; "script"; "search"; "section"; "select"; "source"; "style"; "summary"; "table"; "tbody"; "td"; "template"; "textarea"; "tfoot"; "th"; "thead"; "title"; "tr"; "track"; "ul"; "wbr"; "xmp"]%string t
  | Math => names ["mi"; "mo"; "mn"; "ms"; "mtext"; "annotation-xml"]%string t
  | Svg => names ["foreignObject"; "desc"; "title"]%string t
  end.
Definition std_boundary (t : tag) : bool :=
  match snd t with
  | Html => names ["applet"; "caption"; "html"; "table"; "td"; "th"; "marquee"; "object"; "template"]%string t
  | Math => names ["mi"; "mo"; "mn"; "ms"; "mtext"; "annotation-xml"]%string t
  | Svg => names ["foreignObject"; "desc"; "title"]%string t
  end.
(* an HTML element other than xmp, which never is on the stack while an end tag is processed in the body *)
Definition plain (t : tag) : Prop := snd t = Html /\ fst t <> u "xmp".
(* the steps for any other end tag, "in body": down the stack to an HTML element of the name, which is popped with all above it, or a special element, at which the tag is ignored *)
Fixpoint any_other (special : tag -> bool) (subject : str) (tg : nat -> tag) (top : list nat) : option (list nat) :=
  match top with
  | [] => None
  | x :: t => if str_eqb (fst (tg x)) subject && is_html (tg x) then Some (rev t) else if special (tg x) then None else any_other special subject tg t
  end.
(* what an end tag named subject does *)
Definition std_end_tag (special boundary : tag -> bool) (subject : str) (s : std) : std :=
  match std_adoption_agency special boundary subject s with
  | Done d | Exhausted d => d
  | AnyOther d => match any_other special subject (d_tags d) (rev (d_stack d)) with Some l => Std l (d_list d) (d_tags d) (d_next d) (d_ops d) | None => d end
  end.
