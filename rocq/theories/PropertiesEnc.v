(* C34-C35: decoding bytes.  decode_html d t = Some (codec, name, payload): Python's codec [codec] (errors replaced) is applied to [payload] and [name] is
   the encoding reported; t is the transport label. *)
From Coq Require Import Lia ZifyBool ZifyN ZifyNat.
From Verif Require Import Str StrFacts EncModel EncSpec EncProofs EncFinal.
Open Scope N_scope.

Lemma cap_is : cap = 65536.
Proof. reflexivity. Qed.
Lemma prescan_all_source d e : prescan_all d = Found (Some e) -> exists a m b l c, d = a ++ [60] ++ m ++ b ++ l ++ c /\ alow m = u "meta" /\ meta_names (ascii_part l) e.
Proof. intros H. exact (prescan_source _ _ _ _ _ H). Qed.
(* C34: a result for every byte string and label; the name is one of the seven, with its own codec (so never utf-7), and the bytes decoded are the
   input, less its byte-order mark *)
Theorem C34_supported d t : exists codec name payload, decode_html d t = Some (codec, name, payload) /\ In name supported /\ In (name, codec) python_codec
  /\ (payload = d \/ exists m e, bom m e /\ d = m ++ payload /\ name = e).
Proof.
  assert (G : exists e n, sniff d t = Some (e, n) /\ In e supported /\ (n = O \/ exists m r, bom m e /\ d = m ++ r /\ n = List.length m)).
  { unfold sniff. pose proof (sniff_bom_spec d) as B. destruct (sniff_bom d) as [[e n]|].
    - destruct B as (m & r & B & -> & ->). exists e, (List.length m). split; [reflexivity|]. split; [destruct B; vm_compute; tauto|]. right. exists m, r. repeat split. exact B.
    - destruct (match t with Some t => norm_str t | None => None end) as [e|] eqn:E.
      + exists e, O. split; [reflexivity|]. split; [|left; reflexivity]. destruct t as [t|]; [|discriminate E]. apply norm_str_spec in E. exact (names_supported _ _ E).
      + destruct (prescan_all_found d) as [[e|] P]; rewrite P; eexists; exists O; (split; [reflexivity|split; [|left; reflexivity]]).
        * unfold prescan_all in P. destruct (prescan_source _ _ _ _ _ P) as (a & m & b & l & c & _ & _ & Nm). apply meta_names_result in Nm. unfold meta_results in Nm. cbn [In] in Nm. repeat (destruct Nm as [<- | Nm]; [vm_compute; tauto|]). contradiction.
        * vm_compute. tauto. }
  destruct G as (e & n & S0 & I & Pl). unfold decode_html. rewrite S0. assert (In e supported) as I' by exact I. unfold supported in I. apply in_strs_In in I. rewrite I. 
  exists (fst (codec_of e)), (snd (codec_of e)), (match n with O => d | _ => skipn n d end). split; [destruct (codec_of e); reflexivity|].
  assert (SND : snd (codec_of e) = e) by (unfold supported in I'; cbn [In] in I'; repeat (destruct I' as [<- | I']; [vm_compute; reflexivity|]); contradiction).
  rewrite SND. split; [exact I'|]. split.
  - clear - I'. unfold supported in I'. cbn [In] in I'. repeat (destruct I' as [<- | I']; [vm_compute; tauto|]). contradiction.
  - destruct Pl as [-> | (m & r & B & -> & ->)]; [left; reflexivity|]. right. exists m, e. split; [exact B|]. split; [|reflexivity]. destruct B; reflexivity.
Qed.
(* C34: a byte-order mark wins over everything, and is removed *)
Theorem C34_bom m e r t : bom m e -> exists codec, decode_html (m ++ r) t = Some (codec, e, r) /\ In (e, codec) python_codec.
Proof. intros B. unfold decode_html, sniff. rewrite (sniff_bom_of m e r B). destruct B; eexists; (split; [reflexivity|vm_compute; tauto]). Qed.
(* C34: then the transport label: what a label names is one table; utf-7 labels give windows-1252 *)
Theorem C34_transport d t e : ~ has_bom d -> names t e -> exists codec, decode_html d (Some t) = Some (codec, e, d) /\ In (e, codec) python_codec.
Proof.
  intros NB Nm. unfold decode_html, sniff. pose proof (sniff_bom_spec d) as B. destruct (sniff_bom d) as [[e0 n]|]; [destruct B as (m & r & B & E & _); exfalso; apply NB; exists m, e0, r; split; assumption|].
  pose proof Nm as Nm'. apply norm_str_spec in Nm. rewrite Nm. apply names_supported in Nm'. unfold supported in Nm'. cbn [In] in Nm'.
  repeat (destruct Nm' as [<- | Nm']; [eexists; split; [reflexivity|vm_compute; tauto]|]). contradiction.
Qed.
(* a label outside the table is as good as none *)
Theorem C34_unknown_label d t : (forall e, ~ names t e) -> decode_html d (Some t) = decode_html d None.
Proof.
  intros H. unfold decode_html, sniff. destruct (norm_str t) as [e|] eqn:E; [exfalso; apply norm_str_spec in E; exact (H e E)|]. reflexivity.
Qed.
(* C34: then a meta tag, else windows-1252.  A meta tag never selects UTF-16, and what it selects is named by a label written in the bytes after
   the letters meta of a tag, in the first 65536 bytes *)
Theorem C34_meta_or_default d : ~ has_bom d -> exists codec name, decode_html d None = Some (codec, name, d) /\ In name [u "utf-8"; u "windows-1252"; u "iso-8859-2"; u "euc-jp"]
  /\ (name = u "windows-1252" \/ exists a m b l c, firstn (N.to_nat 65536) d = a ++ [60] ++ m ++ b ++ l ++ c /\ alow m = u "meta" /\ meta_names (ascii_part l) name).
Proof.
  intros NB. unfold decode_html, sniff. pose proof (sniff_bom_spec d) as B. destruct (sniff_bom d) as [[e0 n]|]; [destruct B as (m & r & B & E & _); exfalso; apply NB; exists m, e0, r; split; assumption|].
  destruct (prescan_all_found d) as [[e|] P]; rewrite P.
  - rewrite prescan_all_window in P. rewrite cap_is in P. pose proof (prescan_all_source _ _ P) as Src. assert (Nm : In e meta_results) by (destruct Src as (a & m & b & l & c & _ & _ & Nm); exact (meta_names_result _ _ Nm)).
    assert (R : exists codec, (let '(e0, n) := if in_strs e [u "utf-8"; u "windows-1252"; u "iso-8859-2"; u "euc-jp"; u "utf-16"; u "utf-16le"; u "utf-16be"] then (e, O) else (u "windows-1252", O) in
       let payload := match n with O => d | _ => skipn n d end in let '(codec, name) := codec_of e0 in Some (codec, name, payload)) = Some (codec, e, d)).
    { clear - Nm. unfold meta_results in Nm. cbn [In] in Nm. repeat (destruct Nm as [<- | Nm]; [eexists; reflexivity|]). contradiction. }
    destruct R as [codec R]. exists codec, e. split; [exact R|]. split; [exact Nm|right; exact Src].
  - exists (u "cp1252"), (u "windows-1252"). split; [reflexivity|]. split; [vm_compute; tauto|left; reflexivity].
Qed.
(* the other direction: after text and comments (fewer than 1024 bytes of text), a meta tag written in one of the usual ways selects the encoding it
   names; nothing inside the comments counts *)
Theorem C34_meta_found ps l tag e rest : Forall piece_ok ps -> (text_size ps < N.to_nat 1024)%nat -> N.of_nat (List.length (bytes_of ps ++ tag)) + 8 <= 65536 ->
  l <> [] -> forallb label_byte l = true -> meta_names l e -> meta_tag l tag -> ~ has_bom (bytes_of ps ++ tag ++ rest) ->
  exists codec, decode_html (bytes_of ps ++ tag ++ rest) None = Some (codec, e, bytes_of ps ++ tag ++ rest).
Proof.
  intros OK T C L0 L Nm MT NB. unfold decode_html, sniff. pose proof (sniff_bom_spec (bytes_of ps ++ tag ++ rest)) as B. destruct (sniff_bom (bytes_of ps ++ tag ++ rest)) as [[e0 n]|]; [destruct B as (m & r & B & E & _); exfalso; apply NB; exists m, e0, r; split; assumption|].
  destruct (tag_found l tag e L0 L Nm MT) as (s & Es & Hs & F). rewrite app_length in C. assert (Lt : List.length tag = (5 + List.length s)%nat) by (rewrite Es; reflexivity).
  assert (S0 : s <> []) by (intros ->; destruct MT; discriminate Es).
  assert (P : prescan_all (bytes_of ps ++ tag ++ rest) = Found (Some e)).
  { unfold prescan_all. unfold cap, max_non_comment in *. destruct (prescan_pieces ps 0 0 (tag ++ rest) OK) as (k & Lk & E); [unfold cap; lia|unfold max_non_comment; lia|]. rewrite E.
    rewrite Es in *. rewrite <- app_assoc in *. destruct (F rest (0 + N.of_nat (List.length (bytes_of ps)))) as (r' & ms & A & D); [unfold cap; lia|].
    eapply prescan_tag; [| | | |exact A|exact D].
    - rewrite app_length in Lk. change (List.length (u "<meta")) with 5%nat in Lk. lia.
    - unfold cap. lia.
    - unfold max_non_comment. lia.
    - destruct s as [|c s]; [contradiction|exact Hs]. }
  rewrite P. apply meta_names_result in Nm. unfold meta_results in Nm. cbn [In] in Nm. repeat (destruct Nm as [<- | Nm]; [eexists; reflexivity|]). contradiction.
Qed.
(* C34: no tag at all: windows-1252 *)
Theorem C34_default ps : Forall piece_ok ps -> (text_size ps < N.to_nat 1024)%nat -> N.of_nat (List.length (bytes_of ps)) <= 65536 -> ~ has_bom (bytes_of ps) ->
  decode_html (bytes_of ps) None = Some (u "cp1252", u "windows-1252", bytes_of ps).
Proof.
  intros OK T C NB. unfold decode_html, sniff. pose proof (sniff_bom_spec (bytes_of ps)) as B. destruct (sniff_bom (bytes_of ps)) as [[e0 n]|]; [destruct B as (m & r & B & E & _); exfalso; apply NB; exists m, e0, r; split; assumption|].
  assert (P : prescan_all (bytes_of ps) = Found None).
  { unfold prescan_all. destruct (prescan_pieces ps 0 0 [] OK) as (k & Lk & E); [unfold cap; lia|unfold max_non_comment; lia|]. rewrite app_nil_r in E. rewrite E. destruct k; [cbn in Lk; lia|]. reflexivity. }
  rewrite P. reflexivity.
Qed.

(* C35: the prescan ends for every input (the fuel of the model is enough) *)
Theorem C35_prescan_terminates d : exists e, prescan_all d = Found e.
Proof. exact (prescan_all_found d). Qed.
(* C35: and looks at the first 65536 bytes only *)
Theorem C35_window d t : sniff d t = sniff (firstn (N.to_nat 65536) d) t.
Proof.
  assert (B : sniff_bom (firstn (N.to_nat 65536) d) = sniff_bom d).
  { assert (E : exists n, N.to_nat 65536 = S (S (S n))) by (exists (N.to_nat 65533); lia). destruct E as [n ->]. destruct d as [|a [|b [|c d]]]; reflexivity. }
  unfold sniff. rewrite B. destruct (sniff_bom d); [reflexivity|]. destruct (match t with Some t0 => norm_str t0 | None => None end); [reflexivity|].
  rewrite (prescan_all_window d), cap_is. reflexivity.
Qed.
Theorem C35_later_bytes a b c t : 65536 <= N.of_nat (List.length a) -> sniff (a ++ b) t = sniff (a ++ c) t.
Proof.
  intros L. assert (E : firstn (N.to_nat 65536) (a ++ b) = firstn (N.to_nat 65536) (a ++ c)).
  { assert (G : (N.to_nat 65536 <= List.length a)%nat) by lia. revert G. generalize (N.to_nat 65536). intros n G. rewrite !firstn_app. replace (n - List.length a)%nat with O by lia. reflexivity. }
  etransitivity; [apply C35_window|]. rewrite E. symmetry. apply C35_window.
Qed.

(* C35: and stops after 1024 bytes that are in no comment *)
Theorem C35_text_limit t rest : ~ In 60 t -> N.of_nat (List.length t) = 1024 -> ~ has_bom (t ++ rest) ->
  decode_html (t ++ rest) None = Some (u "cp1252", u "windows-1252", t ++ rest).
Proof.
  intros NL L NB. unfold decode_html, sniff. pose proof (sniff_bom_spec (t ++ rest)) as B. destruct (sniff_bom (t ++ rest)) as [[e0 n]|]; [destruct B as (m & r & B & E & _); exfalso; apply NB; exists m, e0, r; split; assumption|].
  assert (P : prescan_all (t ++ rest) = Found None).
  { unfold prescan_all. rewrite app_length, <- Nat.add_succ_r. rewrite prescan_text; [|exact NL|unfold cap; lia|unfold max_non_comment; lia]. cbn [prescan]. destruct rest as [|c rest]; [reflexivity|].
    assert ((0 + N.of_nat (List.length t) <? max_non_comment) = false) as -> by (unfold max_non_comment; lia). rewrite andb_false_r. reflexivity. }
  rewrite P. reflexivity.
Qed.

Print Assumptions C35_text_limit.
Print Assumptions C34_supported.
Print Assumptions C34_bom.
Print Assumptions C34_transport.
Print Assumptions C34_unknown_label.
Print Assumptions C34_meta_or_default.
Print Assumptions C34_meta_found.
Print Assumptions C34_default.
Print Assumptions C35_prescan_terminates.
Print Assumptions C35_window.
Print Assumptions C35_later_bytes.

(* the hypotheses are met *)
Example C34_bom_ex : decode_html ([239; 187; 191] ++ u "hi") (Some (u "utf-7")) = Some (u "utf-8", u "utf-8", u "hi").
Proof. reflexivity. Qed.
Example C34_transport_ex : ~ has_bom (u "<p>") /\ names (u " UTF-7 ") (u "windows-1252") /\ names (u "Latin2") (u "iso-8859-2").
Proof. split; [|split; vm_compute; tauto]. intros (m & e & t & B & E). destruct B; discriminate E. Qed.
Example C34_meta_found_ex : exists ps, Forall piece_ok ps /\ bytes_of ps = u "<!--<meta charset=euc-jp>--> x" /\
  decode_html (bytes_of ps ++ u "<meta http-equiv=""Content-Type"" content=""text/html; charset=UTF-16""/>" ++ u "z") None
   = Some (u "utf-8", u "utf-8", u "<!--<meta charset=euc-jp>--> x<meta http-equiv=""Content-Type"" content=""text/html; charset=UTF-16""/>z").
Proof.
  exists [Comment (u "<meta charset=euc-jp>"); Text (u " x")]. split; [|split; reflexivity]. constructor; [|constructor; [vm_compute; intuition discriminate|constructor]].
  cbn [piece_ok]. apply find_None. vm_compute. reflexivity.
Qed.
(* WHATWG closes the comment at once here; the code looks for a later end and misses the meta tag *)
Example C34_abrupt_comment : decode_html (u "<!--><meta charset=utf-8>") None = Some (u "cp1252", u "windows-1252", u "<!--><meta charset=utf-8>").
Proof. reflexivity. Qed.
