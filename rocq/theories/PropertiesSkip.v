(* C74: an svg or math element is dropped up to its own end tag *)
From Coq Require Import NArith List Bool String Lia.
From Verif Require Import Str StrFacts ScanModel GuardModel SkipModel SkipSpec SkipProofs SkipProofs2.
Import ListNotations.
Open Scope list_scope.
Open Scope N_scope.

(* What is dropped is the element: its content, however deep, and its end tag.  Partial: no greater-than sign in attribute values, no less-than
   sign in comments, no element of special_names, no self-closing tag with the name of the root. *)
Theorem C74_skips_subtree_partial strict scripting root l n sp tail :
  root = u "svg" \/ root = u "math" ->
  forallb good l = true -> forallb (plain root) l = true -> alow n = root -> spaces sp = true ->
  (strict = false -> existsb odd_letter (sources l ++ n) = false) ->
  (~ frameset_next tail -> drop_foreign strict scripting root false (sources l ++ [60; 47] ++ n ++ sp ++ [62] ++ tail) = At tail)
  /\ (frameset_next tail -> drop_foreign strict scripting root false (sources l ++ [60; 47] ++ n ++ sp ++ [62] ++ tail) = Full).
Proof.
  intros R G P E S O. apply odd_app in O as [O1 O2]. unfold drop_foreign, skip_subtree.
  change (skip_go strict scripting root (Datatypes.S (List.length (sources l ++ [60; 47] ++ n ++ sp ++ [62] ++ tail))) 1 (sources l ++ [60; 47] ++ n ++ sp ++ [62] ++ tail))
    with (run strict scripting root 1 (sources l ++ [60; 47] ++ n ++ sp ++ [62] ++ tail)).
  rewrite (subtree strict scripting root R l n sp tail G P O1 O2 E S). destruct (end_run strict scripting root tail) as [H1 H2]. split; assumption.
Qed.

(* Whatever the input, dropping stops after an end tag with the name of the element, or at the end of the input inside such a tag. *)
Theorem C74_ends_at_end_tag strict scripting name selfc s rest : drop_foreign strict scripting name selfc s = At rest ->
  exists pre nm r, s = pre ++ [60; 47] ++ nm ++ r /\ nm <> [] /\ fold strict nm = name
    /\ ((~ In 62 r /\ rest = []) \/ exists mid, r = mid ++ [62] ++ rest /\ ~ In 62 mid).
Proof. intros H. exact (go_ends strict scripting name _ 0%nat s rest H). Qed.

(* Everything that is left is dropped only for an unclosed CDATA section or a plaintext tag. *)
Theorem C74_drops_to_end strict scripting name selfc s : drop_foreign strict scripting name selfc s = Eof ->
  exists pre p, s = pre ++ 60 :: p /\
    ((ascii_startswith (u "<![cdata[") (60 :: p) = true /\ contains (u "]]>") (skipn 8 p) = false)
     \/ exists nm r, p = nm ++ r /\ fold strict nm = u "plaintext").
Proof. intros H. exact (go_eof strict scripting name _ 0%nat s H). Qed.

Theorem C74_total strict scripting name selfc s : drop_foreign strict scripting name selfc s <> OutOfFuel.
Proof. apply go_total. lia. Qed.

(* An element that is never closed is not dropped this way: the input is parsed (and the element removed from the tree). *)
Theorem C74_unclosed_partial strict scripting root l : root = u "svg" \/ root = u "math" ->
  forallb good l = true -> forallb (plain root) l = true -> (strict = false -> existsb odd_letter (sources l) = false) ->
  drop_foreign strict scripting root false (sources l) = Full.
Proof.
  intros R G P O. unfold drop_foreign, skip_subtree.
  change (skip_go strict scripting root (Datatypes.S (List.length (sources l))) 1 (sources l)) with (run strict scripting root 1 (sources l)).
  rewrite <- (app_nil_r (sources l)). rewrite (list_run strict scripting root l); try assumption; [reflexivity|].
  apply Forall_forall. intros p _. apply piece_run. exact R.
Qed.

(* A self-closing svg is closed: what follows it is not its content.  It is dropped all the same, up to the next end tag of that name. *)
Theorem C74_self_closing_refuted : exists s rest, drop_foreign false true (u "svg") true s = At rest
  /\ s = u "text</svg>after" /\ rest = u "after".
Proof. exists (u "text</svg>after"), (u "after"). split; [vm_compute; reflexivity|split; reflexivity]. Qed.
(* The same inside the element: the inner svg is closed by itself, so the first end tag ends the outer one, and x is outside. *)
Theorem C74_inner_self_closing_refuted : exists l tail,
  forallb good l = true /\ drop_foreign false true (u "svg") false (sources l ++ u "</svg>" ++ tail) <> At tail /\ tail = u "x</svg>y".
Proof. exists [Empty (u "svg") []], (u "x</svg>y"). split; [reflexivity|split; [|reflexivity]]. vm_compute. discriminate. Qed.
(* An end tag inside an attribute value or a comment ends the drop: the rest of the element becomes content of the page. *)
Theorem C74_attribute_refuted : exists l tail rest, forallb good l = true /\ drop_foreign false true (u "svg") false (sources l ++ u "</svg>" ++ tail) = At rest
  /\ l = [Elem (u "a") [(u "t", u "></svg>x")] []] /\ rest = u "x""></a></svg>" ++ tail.
Proof. exists [Elem (u "a") [(u "t", u "></svg>x")] []], (u "y"), (u "x""></a></svg>y"). repeat split; vm_compute; reflexivity. Qed.
Theorem C74_comment_refuted : exists l tail rest, forallb good l = true /\ drop_foreign false true (u "svg") false (sources l ++ u "</svg>" ++ tail) = At rest
  /\ l = [Comment (u " </svg> x ")] /\ rest = u " x --></svg>" ++ tail.
Proof. exists [Comment (u " </svg> x ")], (u "y"), (u " x --></svg>y"). repeat split; vm_compute; reflexivity. Qed.

(* ---------- concrete cases that meet the hypotheses ---------- *)
Definition drawing : list piece :=
  [Comment (u " a > b "); Elem (u "g") [(u "id", u "x<y")] [Chars (u "t"); Elem (u "SVG") [] [Empty (u "path") [(u "d", u "M0")]]; Cdata (u "</svg>")]].
Example C74_case : drop_foreign false true (u "svg") false (sources drawing ++ u "</sVg ><p>after</p>") = At (u "<p>after</p>").
Proof.
  apply (C74_skips_subtree_partial false true (u "svg") drawing (u "sVg") [32] (u "<p>after</p>")); try reflexivity; [auto|].
  intros (sp & f & r & E & S & F). destruct sp as [|c sp].
  - destruct f as [|a [|b f]]; [discriminate F|discriminate F|]. inversion E; subst. vm_compute in F. discriminate F.
  - inversion E; subst. discriminate S.
Qed.
Example C74_case_source : sources drawing = u "<!-- a > b --><g id=""x<y"">t<SVG><path d=""M0""/></SVG><![CDATA[</svg>]]></g>". Proof. reflexivity. Qed.
Example C74_case_full : drop_foreign false true (u "svg") false (sources drawing ++ u "</svg> <FrameSet>") = Full.
Proof. vm_compute. reflexivity. Qed.
Example C74_case_breakout : drop_foreign false true (u "svg") false (u "<p>x</svg>y") = Full. Proof. vm_compute. reflexivity. Qed.
Example C74_case_style : drop_foreign false true (u "svg") false (u "<style></svg></style></svg>y") = At (u "y"). Proof. vm_compute. reflexivity. Qed.
Example C74_case_eof : drop_foreign false true (u "svg") false (u "<g><![CDATA[</svg>") = Eof. Proof. vm_compute. reflexivity. Qed.

Print Assumptions C74_skips_subtree_partial.
Print Assumptions C74_ends_at_end_tag.
Print Assumptions C74_drops_to_end.
Print Assumptions C74_total.
Print Assumptions C74_unclosed_partial.
Print Assumptions C74_self_closing_refuted.
Print Assumptions C74_inner_self_closing_refuted.
Print Assumptions C74_attribute_refuted.
Print Assumptions C74_comment_refuted.
