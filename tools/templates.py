#!/usr/bin/env python3
"""Extracts every fmt::println / fmt::format call of the generator sources:
prints rocq/theories/Templates.v, one definition per call, named by file and line;
with the argument main: those of main.cpp and items.cpp, for MainTemplates.v."""
import re, sys
R = '/repo/src'
FILES = [('pi', 'creation/process_items.cpp'), ('xm', 'creation/xml/process_items_xml.cpp'),
         ('xa', 'creation/xml/process_items_xml_attrib.cpp'), ('ini', 'creation/ini/process_items_ini.cpp')]
MAIN = sys.argv[1:] == ['main']
if MAIN: FILES = [('mn', 'main.cpp'), ('it', 'items.cpp')]
def calls(t):
    # blank out // comments outside literals
    u, i, q = list(t), 0, False
    while i < len(t):
        if q and t[i] == '\\': i += 2; continue
        if t[i] == '"' and not (t[i-1] == "'"): q = not q
        elif not q and t[i:i+2] == '//':
            while i < len(t) and t[i] != '\n': u[i] = ' '; i += 1
            continue
        i += 1
    t = ''.join(u)
    for m in re.finditer(r'fmt::(println|format)\s*\(', t):
        # skip text inside literals
        if t[:m.start()].split('\n')[-1].count('"') % 2: continue
        i, depth, q, args, cur = m.end(), 1, False, [], ''
        while depth:
            c = t[i]
            if q:
                cur += c
                if c == '\\': i += 1; cur += t[i]
                elif c == '"': q = False
            elif c == '"': q = True; cur += c
            elif c in '(': depth += 1; cur += c
            elif c == ')':
                depth -= 1
                if depth: cur += c
            elif c == ',' and depth == 1: args.append(cur.strip()); cur = ''
            else: cur += c
            i += 1
        args.append(cur.strip())
        tgt = ''
        if not args[0].startswith('"'): tgt = args.pop(0)
        lits = re.findall(r'"((?:[^"\\]|\\.)*)"', args[0])
        assert re.sub(r'"((?:[^"\\]|\\.)*)"|\s', '', args[0]) == '', args[0]
        yield t[:m.start()].count('\n') + 1, m.group(1), tgt, ''.join(lits), args[1:]
print('''(** The messages of main.cpp (mn) and items.cpp (it), extracted from the sources by
    tools/templates.py: one definition per call, named after file and line. *)
From Coq Require Import String List.
From Verif Require Import Fmt.
Import ListNotations.
Local Open Scope string_scope.
''' if MAIN else '''(** The format strings of the code generator, extracted from the sources by
    tools/templates.py: one definition per call, named after file and line
    (pi: creation/process_items.cpp, xm: creation/xml/process_items_xml.cpp,
    xa: creation/xml/process_items_xml_attrib.cpp, ini: creation/ini/process_items_ini.cpp).
    The literals are as in the source, with the quote doubled. *)
From Coq Require Import String List.
From Verif Require Import Fmt.
Import ListNotations.
Local Open Scope string_scope.
''')
for tag, f in FILES:
    print(f'(** *** {f} *)\n')
    for line, fn, tgt, lit, args in calls(open(f'{R}/{f}', newline='').read().replace('\r\n', '\n')):
        a = ', '.join(args).replace('"', "'")
        print(f'(* {fn} {tgt or "stdout"} [{a}] *)')
        print(f'Definition {tag}_{line} : template := Eval vm_compute in compile\n "{lit.replace(chr(34), chr(34)*2)}".')
    print()
