(* PROPERTY C70 (cleaning of text and comments, XML coercion) and PROPERTY C71 (processing instructions).
   has_cr and has_null are the flags "\r" in html and "\0" in html of the whole input (engine.py:1301-1303): the theorems assume only that
   they are true when the piece at hand contains such a character, which every piece of the input satisfies. *)
From Coq Require Import Lia.
From Verif Require Import Str StrFacts UrlModel EntitiesModel SerializerModel CoerceModel CoerceSpec CoerceProofs CoerceProofs2.
From Verif Require EntitiesProofs PropertiesInvis.
Notation listed := PropertiesInvis.listed.
Notation without := PropertiesInvis.without.

(* one line ending per line ending, and no carriage return is left *)
Theorem C70_newlines : forall has_cr s, (In 13 s -> has_cr = true) -> forall r, normalized s r <-> r = newlines has_cr s.
Proof.
  intros b s H r. split; [intros N; eapply normalized_fun; [apply newlines_normal; exact H|exact N]|intros ->; apply newlines_normal; exact H].
Qed.
Print Assumptions C70_newlines.
Theorem C70_no_carriage_return : forall has_cr s, (In 13 s -> has_cr = true) -> ~ In 13 (newlines has_cr s).
Proof. intros b s H. eapply normalized_no_cr, newlines_normal, H. Qed.
Print Assumptions C70_no_carriage_return.
Example C70_newlines_example : newlines true [97; 13; 10; 13; 13; 10; 10; 98] = [97; 10; 10; 10; 10; 98].
Proof. reflexivity. Qed.

(* the steps of the cleaning as relations: NUL deleted or replaced, then references decoded, then invisible code points deleted, then coercion *)
Definition null_step (replace_null : bool) (s t : str) : Prop := t = if replace_null then map (fun c => if c =? 0 then 65533 else c) s else filter (fun c => negb (c =? 0)) s.
Definition invisible_step (on : bool) (s t : str) : Prop := if on then without s t else t = s.
Definition coercion_step (on : bool) (s t : str) : Prop := if on then Forall2 coerced s t else t = s.

Lemma invisible_id s : is_ascii s = true -> strip_invisible s = s.
Proof. intros A. unfold strip_invisible. rewrite A. reflexivity. Qed.
Lemma invisible_guard on t : invisible_step on t (if on && negb (match t with [] => true | _ => false end) && negb (is_ascii t) then strip_invisible t else t).
Proof.
  unfold invisible_step. destruct on; [|reflexivity]. cbn [andb]. apply PropertiesInvis.C47_exact.
  destruct (is_ascii t) eqn:A; [rewrite andb_false_r; apply invisible_id, A|]. destruct t; [discriminate|reflexivity].
Qed.
Lemma coercion_guard on t : coercion_step on t (if on && negb (match t with [] => true | _ => false end) then coerce_text t else t).
Proof. unfold coercion_step. destruct on; [|reflexivity]. cbn [andb]. destruct t; [constructor|]. apply coerce_text_spec. Qed.

Theorem C70_text : forall has_cr has_null strip xml replace_null raw, (In 13 raw -> has_cr = true) -> (In 0 raw -> has_null = true) ->
  exists r n, normalized raw r /\ null_step replace_null r n /\
  match decode_entities_in_text n false with
  | None => clean_text has_cr has_null strip xml replace_null raw = None
  | Some d => exists v w, invisible_step strip d v /\ coercion_step xml v w /\ clean_text has_cr has_null strip xml replace_null raw = Some w
  end.
Proof.
  intros hc hn strip xml rn raw H1 H2. pose proof (newlines_normal hc raw H1) as N. set (r := newlines hc raw) in *. assert (H0 : In 0 r -> hn = true) by (intros K; apply H2; eapply normalized_null; eassumption).
  exists r, (nulls hn (if rn then [65533] else []) r). split; [exact N|]. split; [unfold null_step; destruct rn; [apply nulls_map; exact H0|apply nulls_drop; exact H0]|].
  unfold clean_text. fold r. set (n := nulls hn (if rn then [65533] else []) r). assert (D : (if mem 38 n then decode_entities_in_text n false else Some n) = decode_entities_in_text n false).
  { destruct (mem 38 n) eqn:M; [reflexivity|]. symmetry. apply EntitiesProofs.decode_no_amp. intros K. apply mem_In in K. congruence. }
  rewrite D. destruct (decode_entities_in_text n false) as [d|]; [|reflexivity]. do 2 eexists. split; [apply invisible_guard|]. split; [apply coercion_guard|]. reflexivity.
Qed.
Print Assumptions C70_text.
Example C70_text_example : clean_text true true true true false ([13; 10; 0; 8203] ++ u "a&lt;" ++ [12; 64976; 13])%list = Some ([10] ++ u "a< " ++ [65533; 10])%list.
Proof. vm_compute. reflexivity. Qed.
(* text of raw text elements and plaintext: no references, NUL always replaced *)
Theorem C70_raw_text : forall has_cr has_null strip xml raw, (In 13 raw -> has_cr = true) -> (In 0 raw -> has_null = true) ->
  exists r n v w, normalized raw r /\ null_step true r n /\ invisible_step strip n v /\ coercion_step xml v w /\ clean_raw has_cr has_null strip xml raw = w.
Proof.
  intros hc hn strip xml raw H1 H2. pose proof (newlines_normal hc raw H1) as N. set (r := newlines hc raw) in *. assert (H0 : In 0 r -> hn = true) by (intros K; apply H2; eapply normalized_null; eassumption).
  exists r, (nulls hn [65533] r). do 2 eexists. split; [exact N|]. split; [unfold null_step; apply nulls_map; exact H0|]. split; [apply invisible_guard|]. split; [apply coercion_guard|]. reflexivity.
Qed.
Print Assumptions C70_raw_text.
Example C70_raw_text_example : clean_raw true true false true ([0; 13] ++ u "&lt;" ++ [65534])%list = ([65533; 10] ++ u "&lt;" ++ [65533])%list.
Proof. vm_compute. reflexivity. Qed.

(* with xml_coercion no form feed and no noncharacter is left in any text *)
Lemma coercion_clean v w c : coercion_step true v w -> In c w -> c <> 12 /\ ~ nonchar c.
Proof. unfold coercion_step. intros F. induction F as [|x y v w H F IH]; cbn [In]; [tauto|]. intros [<-|K]; [eapply coerced_clean; exact H|apply IH, K]. Qed.
Theorem C70_xml_text : forall has_cr has_null strip replace_null raw out c, clean_text has_cr has_null strip true replace_null raw = Some out -> In c out -> c <> 12 /\ ~ nonchar c.
Proof.
  intros hc hn strip rn raw out c. unfold clean_text. set (n := nulls hn (if rn then [65533] else []) (newlines hc raw)). destruct (if mem 38 n then decode_entities_in_text n false else Some n) as [d|]; [|discriminate].
  set (v := if strip && negb (match d with [] => true | _ => false end) && negb (is_ascii d) then strip_invisible d else d). intros E. injection E as <-. apply coercion_clean with v. exact (coercion_guard true v).
Qed.
Print Assumptions C70_xml_text.
Theorem C70_coercion : forall s, Forall2 coerced s (coerce_text s) /\ coerce_text (coerce_text s) = coerce_text s.
Proof. intros s. split; [apply coerce_text_spec|]. apply coerce_text_id. apply coerce_text_clean. Qed.
Print Assumptions C70_coercion.
(* full statement: every character of coerced text is an XML character.  Partial: for text without the other C0 controls and without surrogates *)
Theorem C70_xml_characters_partial : forall s, (forall c, In c s -> c <= 1114111 /\ ~ control c /\ ~ surrogate c) -> forall c, In c (coerce_text s) -> xml_char c.
Proof.
  intros s H c. rewrite coerce_text_map, in_map_iff. intros (x & E & K). destruct (H x K) as (H1 & H2 & H3). pose proof (coerce_char_spec x) as S. rewrite E in S. unfold xml_char, control, surrogate, nonchar in *.
  destruct S as [|x S|x S1 S2]; try lia. assert (x <> 65534 /\ x <> 65535) by (split; intros ->; apply S2; right; split; lia). lia.
Qed.
Print Assumptions C70_xml_characters_partial.
Theorem C70_xml_characters_refuted : exists c, In c (coerce_text [97; 1; 233; 55296]) /\ ~ xml_char c.
Proof. exists 1. split; [vm_compute; tauto|]. unfold xml_char. lia. Qed.
Print Assumptions C70_xml_characters_refuted.
Example C70_xml_characters_example : coerce_text [97; 12; 233; 65535; 128512] = [97; 32; 233; 65533; 128512].
Proof. vm_compute. reflexivity. Qed.

(* comments: full statement: with xml_coercion a comment is a legal XML comment.  Partial: no run of three hyphens, no hyphen at the end *)
Theorem C70_xml_comment_partial : forall s, (forall a b, s <> a ++ [45; 45; 45] ++ b)%list -> (forall a, s <> a ++ [45])%list -> xml_comment (coerce_comment s).
Proof.
  intros s H1 H2. rewrite coerce_comment_dashes. split.
  - intros a b E. eapply dashes_no2; [constructor| |exists a, b; exact E]. intros (x & y & K). exact (H1 x y K).
  - intros a E. destruct (dashes_last _ s a (le_n _) E) as (b & B). exact (H2 b B).
Qed.
Print Assumptions C70_xml_comment_partial.
(* "---" becomes "- --", which holds "--"; and a hyphen at the end stays *)
Theorem C70_xml_comment_refuted : ~ xml_comment (coerce_comment (u "a---b")) /\ ~ xml_comment (coerce_comment (u "a-")) /\ coerce_comment (coerce_comment (u "a---b")) <> coerce_comment (u "a---b").
Proof.
  split; [|split].
  - intros [H _]. apply (H (u "a- ") (u "b")). reflexivity.
  - intros [_ H]. apply (H (u "a")). reflexivity.
  - vm_compute. discriminate.
Qed.
Print Assumptions C70_xml_comment_refuted.
(* only spaces are added, and a comment without two hyphens in a row is unchanged *)
Theorem C70_comment_text : forall s, filter (fun c => negb (c =? 32)) (coerce_comment s) = filter (fun c => negb (c =? 32)) s /\
  ((forall a b, s <> a ++ [45; 45] ++ b)%list -> coerce_comment s = s).
Proof.
  intros s. rewrite coerce_comment_dashes. split; [eapply dashes_spaces; constructor|]. intros H. eapply dashes_id; [constructor|]. intros (a & b & K). exact (H a b K).
Qed.
Print Assumptions C70_comment_text.
Example C70_comment_example : coerce_comment (u "a--b----c") = u "a- -b- -- -c".
Proof. vm_compute. reflexivity. Qed.

(* surrogate pairs in comments are joined: the same UTF-16, and no pair is left *)
Theorem C70_surrogates : forall s, utf16 (normalize_pairs s) = utf16 s /\ no_pair (normalize_pairs s).
Proof. intros s. rewrite normalize_pairs_eq. split; [eapply pairs_utf16; constructor|eapply pairs_none; constructor]. Qed.
Print Assumptions C70_surrogates.
Theorem C70_surrogates_only : forall s, no_pair s -> normalize_pairs s = s.
Proof.
  intros s. rewrite normalize_pairs_eq. induction s as [|a s IH]; [reflexivity|]. intros H. rewrite pairs_eq. destruct s as [|b s]; [reflexivity|].
  destruct (hi a && lo b) eqn:E.
  - exfalso. unfold hi, lo in E. rewrite !andb_true_iff, !N.leb_le in E. destruct E as [[E1 E2] [E3 E4]]. exact (H [] a b s eq_refl E1 E2 E3 E4).
  - f_equal. apply IH. intros x h l y Q. apply (H (a :: x) h l y). rewrite Q. reflexivity.
Qed.
Print Assumptions C70_surrogates_only.
Example C70_surrogates_example : normalize_pairs [55357; 55357; 56832; 56832; 97] = [55357; 128512; 56832; 97].
Proof. vm_compute. reflexivity. Qed.
(* the whole cleaning of a comment, without coercion *)
Theorem C70_comment : forall has_cr has_null d, (In 13 d -> has_cr = true) -> (In 0 d -> has_null = true) ->
  exists r n, normalized d r /\ null_step true r n /\ utf16 (clean_comment has_cr has_null false d) = utf16 n /\ no_pair (clean_comment has_cr has_null false d) /\
  clean_comment has_cr has_null true d = coerce_comment (clean_comment has_cr has_null false d) /\ ~ In 13 (clean_comment has_cr has_null false d) /\ ~ In 0 (clean_comment has_cr has_null false d).
Proof.
  intros hc hn d H1 H2. destruct (clean_pi_spec hc hn d H1 H2) as (r & N & E). unfold clean_pi in E. exists r, (nulls hn [65533] (newlines hc d)). split; [exact N|]. unfold clean_comment.
  split; [unfold null_step; rewrite E; reflexivity|]. split; [apply C70_surrogates|]. split; [apply C70_surrogates|]. split; [reflexivity|].
  assert (P : forall c s, c < 65536 -> In c (normalize_pairs s) -> In c s).
  { intros c s Hc. rewrite normalize_pairs_eq. assert (G : forall n s, (List.length s < n)%nat -> In c (pairs s) -> In c s).
    { induction n as [|n IH]; intros t L; [lia|]. rewrite pairs_eq. destruct t as [|a [|b t]]; [tauto|tauto|]. cbn [List.length] in L. destruct (hi a && lo b).
      - intros [K|K]; [pose proof (joined_ge a b); lia|]. right. right. apply IH; [lia|exact K].
      - intros [K|K]; [left; exact K|]. right. apply IH; [cbn [List.length]; lia|exact K]. }
    apply (G (Datatypes.S (List.length s)) s). constructor. }
  split; intros K; (apply P in K; [|reflexivity]); rewrite E in K.
  - revert K. apply fffd_cr. eapply normalized_no_cr, N.
  - apply fffd_nz in K. congruence.
Qed.
Print Assumptions C70_comment.
Example C70_comment_clean_example : clean_comment true true true [97; 13; 10; 0; 55357; 56832; 45; 45] = [97; 10; 65533; 128512; 45; 32; 45].
Proof. vm_compute. reflexivity. Qed.

(* PROPERTY C71 *)
(* what is a processing instruction, and the data it gets *)
Theorem C71_exact : forall content d, pi_data content = Some d <-> instruction content d.
Proof. intros content d. split; [apply pi_sound|apply pi_complete]. Qed.
Print Assumptions C71_exact.
(* the specification leaves no choice: one data per content *)
Theorem C71_unique : forall content d d', instruction content d -> instruction content d' -> d = d'.
Proof. intros content d d' A B. apply pi_complete in A, B. congruence. Qed.
Print Assumptions C71_unique.
Example C71_example : pi_data (u "php echo 1?") = Some (u "php echo 1") /\ pi_data (u "a") = Some (u "a ") /\ pi_data (u "a?b") = Some (u "a ?b") /\
  pi_data (u "XmL v") = None /\ pi_data (u "a=b") = None /\ pi_data (u "1a") = None.
Proof. vm_compute. repeat split. Qed.
(* its data, cleaned, written as the serializer writes it and read again (by any later parse), is the same: nothing is lost on a round trip *)
Theorem C71_round_trip : forall has_cr has_null content d, (In 13 content -> has_cr = true) -> (In 0 content -> has_null = true) -> ~ In 62 content ->
  read_pi has_cr has_null content = Some d -> forall has_cr' has_null', read_pi has_cr' has_null' (serialize_pi_data d ++ [63])%list = Some d /\ serialize_pi_data d = d.
Proof. intros hc hn content d H1 H2 H3 H hc' hn'. eapply read_pi_again; eassumption. Qed.
Print Assumptions C71_round_trip.
Theorem C71_clean : forall has_cr has_null content d, (In 13 content -> has_cr = true) -> (In 0 content -> has_null = true) -> read_pi has_cr has_null content = Some d -> ~ In 13 d /\ ~ In 0 d.
Proof.
  intros hc hn content d H1 H2. unfold read_pi. destruct (pi_data content) as [d0|] eqn:E; [|discriminate]. intros K. injection K as <-. apply pi_sound in E. destruct E as [t gap data close T G W C1 C2 C3].
  assert (I : forall c, In c (t ++ [32] ++ data)%list -> c = 32 \/ In c (t ++ gap ++ data ++ close)%list) by (intros c; rewrite !in_app_iff; cbn [In]; intros [J|[[J|[]]|J]]; auto).
  split; intros J; apply clean_pi_clean in J; try tauto; intros J2; apply I in J2; destruct J2 as [J2|J2]; try discriminate; auto.
Qed.
Print Assumptions C71_clean.
Example C71_round_trip_example : read_pi true true (u "php" ++ [32; 13; 10] ++ u "a" ++ [13; 0] ++ u "??")%list = Some (u "php a" ++ [10; 65533; 63])%list.
Proof. vm_compute. reflexivity. Qed.
