(* PROPERTY C59: PruneEmpty *)
From Coq Require Import Lia.
From Verif Require Import ListFacts Str StrFacts SerializerModel SerTreeProofs TextSpec TextProofs PrettySpec TransModel TransSpec TransProofs TidySpec PruneProofs.
Open Scope list_scope. Open Scope N_scope.

(* Exactly the matching elements that are empty after pruning inside them go - provided no selector matches the doctype. *)
Theorem C59_exact_partial pts n : (forall pt d, In pt pts -> p_sel pt (NDoctype d) = false) -> pruned_inside (map (fun pt => (p_sel pt, p_strip pt)) pts) n (prune_tree pts n).
Proof. apply prune_spec. Qed.
Print Assumptions C59_exact_partial.
(* PruneEmpty("*") removes the doctype: the model's selector "*" is the one that matches every node whose name does not start with # *)
Definition star (n : node) : bool := match n with NDoctype _ | NElem _ _ _ _ _ => true | _ => false end.
Theorem C59_doctype_refuted : exists d n, n = NDocument [NDoctype d; NElem (u "p") (Some (u "html")) [] [NText (u "x")] None] /\
  prune_tree [Prune star true] n = NDocument [NElem (u "p") (Some (u "html")) [] [NText (u "x")] None].
Proof. exists (DStr (u "html")). eexists. split; reflexivity. Qed.
Print Assumptions C59_doctype_refuted.
(* none is left below the root *)
Theorem C59_none_left pts n m pt : within m (prune_tree pts n) -> m <> prune_tree pts n -> In pt pts -> p_sel pt m = true -> ~ empty_element (p_strip pt) m.
Proof.
  intros W Hm I Hs He. destruct (none_left pts n m W) as [E|E]; [exact (Hm E)|]. destruct m as [d|d|d|d|cs|name ns attrs cs tc]; try exact He. cbn [pruned_away] in E.
  rewrite <- not_true_iff_false in E. apply E, existsb_exists. exists pt. split; [exact I|]. rewrite Hs. apply empty_iff, He.
Qed.
Print Assumptions C59_none_left.
(* a second run changes nothing *)
Theorem C59_idempotent pts n : prune_tree pts (prune_tree pts n) = prune_tree pts n.
Proof. apply prune_again. Qed.
Print Assumptions C59_idempotent.
(* all text stays, in order, except (strip_whitespace=True) text of white space only and (False) empty text *)
Theorem C59_texts pts cs b l l' : Forall plain cs -> (forall pt, In pt pts -> p_strip pt = true -> b = true) ->
  texts (NDocument cs) l -> texts (prune_tree pts (NDocument cs)) l' -> filter (text_ok b) l' = filter (text_ok b) l.
Proof. intros P Hb T T'. rewrite (texts_unique _ _ T), (texts_unique _ _ T'). apply prune_texts_root; assumption. Qed.
Print Assumptions C59_texts.
(* the root stays, with its name and attributes *)
Theorem C59_root pts n : same_head n (prune_tree pts n).
Proof. destruct n; constructor. Qed.
Print Assumptions C59_root.

Definition el (name : string) (cs : list node) : node := NElem (u name) (Some (u "html")) [] cs None.
Definition tag (name : string) (n : node) : bool := match n with NElem nm _ _ _ _ => str_eqb nm (u name) | _ => false end.
Example C59_case : prune_tree [Prune (tag "p") true] (NDocument [el "p" [el "p" []; NText (u " "); NComment (u "c")]; el "p" [el "img" []]; el "div" []]) =
  NDocument [el "p" [el "img" []]; el "div" []].
Proof. vm_compute. reflexivity. Qed.
Example C59_hyp : forall pt d, In pt [Prune (tag "p") true] -> p_sel pt (NDoctype d) = false.
Proof. intros pt d [<-|[]]. reflexivity. Qed.
(* a paragraph with a no-break space only counts as empty *)
Example C59_nbsp : prune_tree [Prune (tag "p") true] (NDocument [el "p" [NText [160]]]) = NDocument [].
Proof. vm_compute. reflexivity. Qed.
