(* PROPERTY C43: stream(html) ends, and its events are the html, piece by piece, in order.
   `covers false html items` (StreamSpec.v): the html is a sequence of pieces, each standing for the items it gives. *)
From Coq Require Import Lia.
From Verif Require Import Str StrFacts EntitiesModel HtmlCharRefSpec HtmlTokSpec TokFacts EntExact RefsFacts ScanModel AttrModel StreamModel StreamSpec StreamStack StreamCover StreamMain.
From Verif Require ScanComProofs.
Open Scope list_scope. Open Scope N_scope.

(* For every string the scanner ends (never OutOfFuel), its own lists and dicts never fail (never Internal), and the events cover the html; the one
   exception is int() in the decoding of a character reference, for html with a reference directly followed by a digit or letter outside ASCII (C27). *)
Theorem C43_events : forall html,
  (exists events, stream html = Events events /\ covers false html (items events)) \/ (stream html = Raises /\ ~ refs_ok true html).
Proof.
  intros html. unfold stream. pose proof (cover (S (List.length html)) false [] no_elements html ltac:(lia) empty_consistent (fun _ x (I : In x []) => match I with end)) as G. destruct (scan_html _ _ _ _) as [evs| | |]; cbn [good map app] in G; try contradiction.
  - destruct G as (l & C & E). left. exists evs. rewrite E. split; [reflexivity|exact C].
  - right. split; [reflexivity|exact G].
Qed.
Print Assumptions C43_events.
Theorem C43_ends : forall html, refs_ok true html -> exists events, stream html = Events events /\ covers false html (items events).
Proof. intros html R. destruct (C43_events html) as [H|[_ H]]; [exact H|destruct (H R)]. Qed.
Print Assumptions C43_ends.

(* Text: html without < is one text event, with line ends normalized and the standard's references decoded. *)
Theorem C43_text : forall html, html <> [] -> ~ In 60 html -> refs_ok false html -> stream html = Events (flush (decode_spec false (newlines html))).
Proof.
  intros html Nn N R. unfold stream. destruct html as [|c t]; [congruence|]. cbn [scan_html]. set (s := c :: t) in *. assert (F : find_char 60 s = None) by (apply find_char_None; exact N). rewrite F. unfold append_text. rewrite ScanComProofs.crlf_newlines. cbn [negb andb]. cbv zeta.
  pose proof (c27_exact false (newlines s) (refs_newlines _ _ R)) as K. destruct (mem 38 (newlines s)) eqn:M; [rewrite K; reflexivity|]. rewrite (decode_plain _ M) in K. assert (decode_spec false (newlines s) = newlines s) as -> by congruence. reflexivity.
Qed.
Print Assumptions C43_text.
Example C43_text_case : stream (u "a &lt;b&gt; &amp;c") = Events [EText (u "a <b> &c")].
Proof. vm_compute. reflexivity. Qed.

(* no text event is empty *)
Lemma flush_ne b : ~ In (EText []) (flush b).
Proof. destruct b; cbn; [intros []|]. intros [H|[]]. discriminate H. Qed.
Definition no_empty (o : outcome) : Prop := match o with Events l => ~ In (EText []) l | _ => True end.
Lemma emit_ne l o : ~ In (EText []) l -> no_empty o -> no_empty (emit l o).
Proof. destruct o; cbn; trivial. intros A B I. apply in_app_or in I as [I|I]; [exact (A I)|exact (B I)]. Qed.
Lemma app_ne (a b : list event) : ~ In (EText []) a -> ~ In (EText []) b -> ~ In (EText []) (a ++ b).
Proof. intros A B I. apply in_app_or in I as [I|I]; [exact (A I)|exact (B I)]. Qed.
Lemma decl_ne o s e r : markup_declaration o s = (DEvent e, r) -> e <> EText [].
Proof.
  unfold markup_declaration. destruct (starts _ s); [destruct (comment_declaration _); congruence|]. destruct (ascii_startswith (u "doctype") s); [destruct (until _ _) as [d x]; unfold doctype_event; destruct (doctype_match d) as [[[[? ?] ?] ?]|]; congruence|]. destruct (ascii_startswith _ s && _); [destruct (find _ _); congruence|]. destruct (until _ _); congruence.
Qed.
Lemma one_ne e : e <> EText [] -> ~ In (EText []) [e].
Proof. intros H [K|[]]. exact (H K). Qed.
Lemma scan_ne fuel : forall b o s, no_empty (scan_html fuel b o s).
Proof.
  induction fuel as [|fuel IH]; intros b o s; [exact Logic.I|]. destruct s as [|s0 st]; [apply flush_ne|]. cbn [scan_html]. set (s := s0 :: st). cbv zeta.
  assert (T : forall e, no_empty (Events (flush e))) by (intros; apply flush_ne). assert (K : forall e x, e <> EText [] -> ~ In (EText []) (flush x ++ [e])) by (intros; apply app_ne; [apply flush_ne|apply one_ne; assumption]).
  destruct (find_char 60 s); [|destruct (append_text _ _ s); [apply T|exact Logic.I]]. destruct (append_text _ _ _); [|exact Logic.I]. destruct (skipn _ s) as [|ch t]; [apply T|].
  destruct (ch =? 33). { destruct (markup_declaration o t) as [[e|x] r] eqn:E; [apply emit_ne; [apply K; exact (decl_ne _ _ _ _ E)|apply IH]|]. destruct (append_text _ _ x); [|exact Logic.I]. apply emit_ne; [apply app_ne; apply flush_ne|apply IH]. }
  destruct (ch =? 47). { destruct t as [|c t']; [apply IH|]. destruct (negb _); [destruct (c =? 62); [apply IH|]; destruct (until 62 (c :: t')); apply emit_ne; [apply K; discriminate|apply IH]|]. destruct (nil _ && _); [apply IH|]. destruct (pop_for_end_tag _ o); [|exact Logic.I]. apply emit_ne; [apply K; discriminate|apply IH]. }
  destruct (ch =? 63). { destruct (until 62 t). apply emit_ne; [apply K; discriminate|apply IH]. }
  destruct (negb _); [apply emit_ne; [apply flush_ne|apply IH]|]. destruct (store _ _); [|exact Logic.I]. destruct (negb _); [apply T|]. destruct (namespace_for _ _ o) as [[nsp o']|]; [|exact Logic.I]. apply emit_ne; [apply K; discriminate|].
  destruct (negb (foreign nsp) && _); [destruct (append_text _ _ _); [apply IH|exact Logic.I]|]. destruct (negb (foreign nsp) && _); [|apply IH]. destruct (find_end_tag _ _) as [[? ?]|]; [|destruct (append_text _ _ _); [apply IH|exact Logic.I]]. destruct (append_text _ _ _); [|exact Logic.I]. apply emit_ne; [apply flush_ne|]. destruct (nil _ && _); [apply IH|]. destruct (pop_for_end_tag _ _); [|exact Logic.I]. apply emit_ne; [apply one_ne; discriminate|apply IH].
Qed.
Theorem C43_no_empty_text : forall html events, stream html = Events events -> ~ In (EText []) events.
Proof. intros html events E. pose proof (scan_ne (S (List.length html)) [] no_elements html) as H. fold (stream html) in H. rewrite E in H. exact H. Qed.
Print Assumptions C43_no_empty_text.

Example C43_case : stream (u "<!DOCTYPE html><p id=a ID=b>x &lt; y<!-- c --><script>if (a<b) </script ><br/></p>< 2 &amp") = Events
  [EDoctype (Some (u "html")) None None; EStart (u "p") [(u "id", u "a")]; EText (u "x < y"); EComment (u " c "); EStart (u "script") []; EText (u "if (a<b) "); EEnd (u "script");
   EStart (u "br") []; EEnd (u "p"); EText (u "< 2 &")].
Proof. vm_compute. reflexivity. Qed.
(* no start tag has two attributes of one name *)
Lemma covers_names f html l : covers f html l -> forall n a, In (IStart n a) l -> NoDup (map fst a).
Proof.
  intros C. assert (K : forall w a, tag_attributes w a -> NoDup (map fst a)) by (intros w a (r & l0 & _ & _ & ->); apply first_wins_nodup). assert (M : forall v x y, ~ In (IStart x y) (map IChar v)) by (intros v x y I; apply in_map_iff in I as (z & E & _); discriminate E).
  induction C; intros nm at' I; try (apply in_app_or in I as [I|I]; [destruct (M _ _ _ I)|]); try (destruct I as [I|I]; [try discriminate I; try (injection I as <- <-; eapply K; eassumption)|]); try (apply in_app_or in I as [I|I]; [destruct (M _ _ _ I)|]); try (destruct I; fail); try (destruct I as [I|I]; [discriminate I|]); try (destruct I; fail); eauto; destruct (M _ _ _ I).
Qed.
Theorem C43_attribute_names : forall html events name attrs, stream html = Events events -> In (EStart name attrs) events -> NoDup (map fst attrs).
Proof.
  intros html events name attrs E I. destruct (C43_events html) as [(evs & E' & C)|[E' _]]; rewrite E in E'; [|discriminate E']. assert (evs = events) as -> by congruence. apply (covers_names false html _ C name attrs). unfold items. apply in_flat_map. exists (EStart name attrs). split; [exact I|left; reflexivity].
Qed.
Print Assumptions C43_attribute_names.
Example C43_attributes_case : stream (u "<a b = 'x>y&amp;' C=1/ B=2 d/>") = Events [EStart (u "a") [(u "b", u "x>y&"); (u "c", u "1/"); (u "d", [])]].
Proof. vm_compute. reflexivity. Qed.
