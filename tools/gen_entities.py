#!/usr/bin/env python3
"""Generates rocq/theories/EntityTable.v: html.entities.html5 (the WHATWG named character reference table,
data of the Python standard library) and the LEGACY_ENTITIES literal of /repo/src/justhtml/core/entities.py
(read as text with ast, not imported)."""
import html.entities, ast
t=html.entities.html5
src=open("/repo/src/justhtml/core/entities.py").read()
leg=None
for n in ast.parse(src).body:
    if isinstance(n,ast.AnnAssign) and getattr(n.target,"id","")=="LEGACY_ENTITIES":
        leg=[e.value for e in n.value.elts]
o=["(* GENERATED by tools/gen_entities.py. Data only: html.entities.html5 of the Python standard library (the\n   WHATWG named character reference table) and LEGACY_ENTITIES of /repo/src/justhtml/core/entities.py:36-142. *)",
"From Verif Require Import Str.","Open Scope string_scope.",
"Definition html5_raw : list (string * list N) := ["]
items=sorted(t.items())
o.append(";\n".join('  ("%s", [%s]%%N)'%(k,";".join(str(ord(c)) for c in v)) for k,v in items))
o.append("].\nDefinition legacy_raw : list string := [")
o.append(";\n".join('  "%s"'%k for k in leg))
o.append("].\nOpen Scope N_scope.")
o.append("(* html.entities.html5: name (with its ';' if it has one) -> value *)\nDefinition html5_table : list (str * str) := Eval vm_compute in map (fun p => (u (fst p), snd p)) html5_raw.")
o.append("(* core/entities.py:36-142 LEGACY_ENTITIES *)\nDefinition legacy_entities : list str := Eval vm_compute in map u legacy_raw.")
open("/verif/rocq/theories/EntityTable.v","w").write("\n".join(o)+"\n")
