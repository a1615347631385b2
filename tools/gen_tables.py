#!/usr/bin/env python3
"""Generates rocq/theories/UnicodeTables.v from CPython's str methods (data only, no /repo code)."""
import sys
MAX=0x110000
def ranges(pred, start=0):
    out=[];cur=None
    for c in range(start,MAX):
        if pred(chr(c)):
            if cur is None: cur=[c,c]
            else: cur[1]=c
        elif cur is not None:
            out.append(tuple(cur));cur=None
    if cur is not None: out.append(tuple(cur))
    return out
def fmt(rs):
    return "[" + "; ".join("(%d,%d)"%r for r in rs) + "]"
import textwrap
def wrap(s): return "\n  ".join(textwrap.wrap(s,110))
low=[(c,ord(chr(c).lower())) for c in range(128,MAX) if len(chr(c).lower())==1 and chr(c).lower()!=chr(c)]
multi=[c for c in range(MAX) if len(chr(c).lower())!=1]
assert multi==[0x130]
# compress with strides
ent=[];i=0
while i<len(low):
    c,d=low[i]
    best=(1,1)
    for st in (1,2):
        j=i
        while j+1<len(low) and low[j+1][0]==low[j][0]+st and low[j+1][1]-low[j+1][0]==d-c: j+=1
        n=j-i+1
        if n>best[1]: best=(st,n)
    st,n=best
    ent.append((c,low[i+n-1][0],st,d)); i+=n
o=[]
o.append("(* GENERATED by tools/gen_tables.py from CPython %s str methods. Data only.\n   Code points are N. Ranges are inclusive. *)"%sys.version.split()[0])
o.append("From Coq Require Import NArith List.\nImport ListNotations.\nOpen Scope N_scope.\n")
o.append("(* chr(c).isspace(), all code points *)\nDefinition space_ranges : list (N*N) :=\n  %s.\n"%wrap(fmt(ranges(str.isspace))))
o.append("(* chr(c).isdecimal(), all code points; every range length is a multiple of ten and starts at a digit zero *)\nDefinition decimal_ranges : list (N*N) :=\n  %s.\n"%wrap(fmt(ranges(str.isdecimal))))
for lo,hi in ranges(str.isdecimal):
    assert (hi-lo+1)%10==0
    import unicodedata
    for k in range(lo,hi+1): assert unicodedata.decimal(chr(k))==(k-lo)%10
o.append("(* chr(c).isdigit() and not chr(c).isdecimal() *)\nDefinition digit_nondecimal_ranges : list (N*N) :=\n  %s.\n"%wrap(fmt(ranges(lambda c:c.isdigit() and not c.isdecimal()))))
o.append("(* chr(c).isalpha(), all code points *)\nDefinition alpha_ranges : list (N*N) :=\n  %s.\n"%wrap(fmt(ranges(str.isalpha))))
o.append("(* chr(c).isalnum() and not isalpha() and not isdigit() (numeric only) *)\nDefinition numeric_only_ranges : list (N*N) :=\n  %s.\n"%wrap(fmt(ranges(lambda c:c.isalnum() and not c.isalpha() and not c.isdigit()))))
o.append("(* chr(c).lower() for c >= 128 when it is one different code point: (lo, hi, step, image of lo);\n   the image of lo + k*step is image + k*step. U+0130 (two code points) is handled separately. *)\nDefinition lower_entries : list (N*N*N*N) :=\n  %s.\n"%wrap("["+"; ".join("(%d,%d,%d,%d)"%e for e in ent)+"]"))
open("/verif/rocq/theories/UnicodeTables.v","w").write("\n".join(o))
print(len(ent), len(ranges(str.isalpha)))
