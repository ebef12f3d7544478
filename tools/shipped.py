#!/usr/bin/env python3
"""Prints rocq/theories/Shipped.v: the header configuration/config_data.h and the four
files of the repository that stfx generated from it (carriage returns removed)."""
import sys
R = sys.argv[1] if len(sys.argv) > 1 else '/repo/src'
print('''(** configuration/config_data.h and the four files in the repository that stfx
    generated from it; copied by tools/shipped.py, carriage returns removed. *)
From Coq Require Import String.
Local Open Scope string_scope.
''')
for n, f in [('config_data_h', 'config_data.h'), ('enums_cpp', 'enums.cpp'), ('enums_h', 'enums.h'),
             ('structs_cpp', 'structs.cpp'), ('structs_h', 'structs.h')]:
    t = open(f'{R}/configuration/{f}', newline='').read().replace('\r', '')
    print(f'Definition shipped_{n} : string :=\n"{t.replace(chr(34), chr(34)*2)}".\n')
