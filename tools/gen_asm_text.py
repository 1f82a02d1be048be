#!/usr/bin/env python3
"""Generates rocq/theories/AsmText*.v from src/asm: every listing as a string, byte for byte."""
import sys,os
src=sys.argv[1] if len(sys.argv)>1 else '/repo/src/asm'
dst=sys.argv[2] if len(sys.argv)>2 else '/verif/rocq/theories'
def group(f):
    if 'combined' in f or 'i386_x86_64' in f or 'ppc32_ppc64' in f: return 'Stub'
    if '_i386' in f: return 'I386'
    if 'x86_64' in f: return 'X64'
    if '_arm' in f: return 'Arm'
    if '_ppc32' in f: return 'Ppc32'
    if '_ppc64' in f: return 'Ppc64'
    return 'Risc'
fs={}
for f in sorted(os.listdir(src)):
    if f.endswith(('.S','.asm')): fs.setdefault(group(f),[]).append(f)
for g,l in fs.items():
    out=["(** * The text of listings in src/asm (generated by tools/gen_asm_text.py)",
         "",
         "    Every file byte for byte; in a Coq string a quotation mark is doubled. *)",
         "From Coq Require Import String.","Open Scope string_scope.",""]
    for f in l:
        t=open(os.path.join(src,f),encoding='ascii').read()
        assert '\r' not in t
        n='t_'+f.replace('.','_')
        out+=["(** src/asm/%s *)"%f,"Definition %s : string :=\n\"%s\"."%(n,t.replace('"','""')),""]
    open(os.path.join(dst,'AsmText%s.v'%g),'w').write('\n'.join(out))
    print(g,len(l))
