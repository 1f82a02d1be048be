#!/usr/bin/env python3
"""Generates rocq/theories/BuildText.v: build/Jamfile.v2, CMakeLists.txt, the public headers and the preprocessor's
input in src as strings, byte for byte."""
import sys,os
src=sys.argv[1] if len(sys.argv)>1 else '/repo'
dst=sys.argv[2] if len(sys.argv)>2 else '/verif/rocq/theories'
inc='include/boost/context'
hs=sorted(os.path.relpath(os.path.join(d,f),os.path.join(src,'include')) for d,_,fs in os.walk(os.path.join(src,inc)) for f in fs if f.endswith('.hpp'))
cs=['src/fiber.cpp','src/continuation.cpp','src/fcontext.cpp','src/untested.cpp','src/dummy.cpp','src/asm/tail_ontop_ppc32_sysv.cpp']
out=["(** * The text of the build description and of the headers (generated by tools/gen_build_text.py)",
     "",
     "    Every file byte for byte; in a Coq string a quotation mark is doubled. *)",
     "From Coq Require Import String List.","Import ListNotations.","Open Scope string_scope.",""]
def emit(path,n):
    t=open(os.path.join(src,path),encoding='ascii').read()
    assert '\r' not in t, path
    out.extend(["(** %s *)"%path,"Definition %s : string :=\n\"%s\"."%(n,t.replace('"','""')),""])
def nm(p): return 'b_'+p.replace('/','_').replace('.','_')
emit('build/Jamfile.v2','b_jamfile')
emit('CMakeLists.txt','b_cmake')
for h in hs: emit('include/'+h,nm(h))
for c in cs: emit(c,nm(c))
out.append("(** the files that #include finds, and those that are compiled *)")
out.append("Definition headers : list (string * string) :=\n  ["+";\n   ".join('("%s", %s)'%(h,nm(h)) for h in hs)+"].")
out.append("Definition sources : list (string * string) :=\n  ["+";\n   ".join('("%s", %s)'%(c[4:],nm(c)) for c in cs)+"].\n")
open(os.path.join(dst,'BuildText.v'),'w').write('\n'.join(out))
