#!/usr/bin/env python3
"""Transcribe the flex and bison tables of /repo into Coq lists."""
import re
R='/repo/src/lex_parse/'
O='/verif/rocq/theories/'
t=open(R+'tokenize.cpp',newline='').read()
def wrap(v):
    out=[]
    for i in range(0,len(v),16): out.append('  '+'; '.join(v[i:i+16]))
    return ';\n'.join(out)
s='''(** Flex tables, transcribed by tools/gen_tables.py from
    src/lex_parse/tokenize.cpp (do not edit by hand). *)
From Coq Require Import NArith List.
Import ListNotations.
Local Open Scope N_scope.

'''
for n in ['yy_accept','yy_ec','yy_meta','yy_base','yy_def','yy_nxt','yy_chk']:
    m=re.search(r'static const \S+ '+n+r'\[(\d+)\] =\s*\{(.*?)\}',t,re.S)
    v=re.findall(r'-?\d+',m.group(2)); assert len(v)==int(m.group(1))
    l1=t[:m.start()].count('\n')+1; l2=t[:m.end()].count('\n')+1
    s+='(** tokenize.cpp:%d-%d *)\nDefinition %s : list N := [\n%s ].\n\n'%(l1,l2,n,wrap(v))
open(O+'FlexTables.v','w').write(s)
t=open(R+'Parser.cpp',newline='').read()
s='''(** Bison LALR(1) tables, transcribed by tools/gen_tables.py from
    src/lex_parse/Parser.cpp and Parser.hpp (do not edit by hand). *)
From Coq Require Import ZArith List.
Import ListNotations.
Local Open Scope Z_scope.

'''
for n in ['yypact_','yydefact_','yypgoto_','yydefgoto_','yytable_','yycheck_','yyr1_','yyr2_']:
    m=re.search(r'Parser ::'+n+r'\[\] =\s*\{(.*?)\}',t,re.S)
    v=re.findall(r'-?\d+',m.group(1))
    l1=t[:m.start()].count('\n')+1; l2=t[:m.end()].count('\n')+1
    s+='(** Parser.cpp:%d-%d *)\nDefinition %s : list Z := [\n%s ].\n\n'%(l1,l2,n,wrap(['(%s)'%x if x[0]=='-' else x for x in v]))
def one(pat,f):
    tt=open(R+f,newline='').read(); m=re.search(pat,tt); return m.group(1), tt[:m.start()].count('\n')+1
for n,pat,f in [('yypact_ninf_',r'yypact_ninf_ = (-?\d+)','Parser.cpp'),('yytable_ninf_',r'yytable_ninf_ = (-?\d+)','Parser.cpp'),
   ('yylast_',r'yylast_ = (\d+)','Parser.hpp'),('yyfinal_',r'yyfinal_ = (\d+)','Parser.hpp'),('YYNTOKENS',r'YYNTOKENS = (\d+)','Parser.hpp')]:
    v,l=one(pat,f)
    s+='(** %s:%d *)\nDefinition %s : Z := %s.\n'%(f,l,n,'(%s)'%v)
open(O+'BisonTables.v','w').write(s)

# The accessing symbols of the states, in a file of their own.
m=re.search(r'Parser ::yystos_\[\] =\s*\{(.*?)\}',t,re.S)
l1=t[:m.start()].count('\n')+1; l2=t[:m.end()].count('\n')+1
open(O+'BisonStos.v','w').write('''(** Bison table, transcribed by tools/gen_tables.py from src/lex_parse/Parser.cpp
    (do not edit by hand). *)
From Coq Require Import ZArith List.
Import ListNotations.
Local Open Scope Z_scope.

(** Parser.cpp:%d-%d *)
Definition yystos_ : list Z := [
%s ].
'''%(l1,l2,wrap(re.findall(r'-?\d+',m.group(1)))))
