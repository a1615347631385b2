(* Finite facts about the entity tables, by computation. *)
From Verif Require Import Str StrFacts EntityTable EntitiesModel.
Open Scope N_scope.

(* ---------- facts about the table (finite, by computation) ---------- *)
Definition has_semi_name (k : str) : bool := ends [59] k.
Definition name_ok (k : str) : bool :=
  let r := strip_semi k in
  negb (Nat.eqb (List.length r) 0) && forallb is_alnum_ascii r && (Nat.leb (List.length r) max_named_entity_length) &&
  (if has_semi_name k then str_eqb k (r ++ [59])%list else str_eqb k r).
Definition opt_str_eqb (a b : option str) : bool :=
  match a, b with Some x, Some y => str_eqb x y | None, None => true | _, _ => false end.
Lemma opt_str_eqb_eq a b : opt_str_eqb a b = true -> a = b.
Proof. destruct a, b; cbn; try congruence. intros H; apply str_eqb_eq in H; congruence. Qed.

Lemma table_names_ok : forallb (fun e => name_ok (fst e)) html5_table = true.
Proof. vm_compute; reflexivity. Qed.
Lemma table_keys_unique : forallb (fun e => opt_str_eqb (assoc (fst e) html5_table) (Some (snd e))) html5_table = true.
Proof. vm_compute; reflexivity. Qed.
Lemma table_named : forallb (fun e => opt_str_eqb (assoc (strip_semi (fst e)) named_entities) (Some (snd e))) html5_table = true.
Proof. vm_compute; reflexivity. Qed.
Lemma named_keys_agree : forallb (fun e => opt_str_eqb (assoc (fst e ++ [59])%list html5_table) (Some (snd e))) named_entities = true.
Proof. vm_compute; reflexivity. Qed.
Lemma table_legacy : forallb (fun e => has_semi_name (fst e) || in_strs (fst e) legacy_entities) html5_table = true.
Proof. vm_compute; reflexivity. Qed.
Lemma legacy_table : forallb (fun k => match assoc k html5_table with Some v => opt_str_eqb (assoc k named_entities) (Some v) | None => false end
    && Nat.leb (List.length k) max_legacy_entity_length && negb (has_semi_name k) && negb (Nat.eqb (List.length k) 0)) legacy_entities = true.
Proof. vm_compute; reflexivity. Qed.

Lemma named_nil : assoc [] named_entities = None.
Proof. vm_compute; reflexivity. Qed.
Lemma legacy_nil : in_strs [] legacy_entities = false.
Proof. vm_compute; reflexivity. Qed.
Lemma legacy_semi_only : in_strs [59] legacy_entities = false.
Proof. vm_compute; reflexivity. Qed.
#[global] Opaque html5_table named_entities legacy_entities.
