(** Bison table, transcribed by tools/gen_tables.py from src/lex_parse/Parser.cpp
    (do not edit by hand). *)
From Coq Require Import ZArith List.
Import ListNotations.
Local Open Scope Z_scope.

(** Parser.cpp:1372-1384 *)
Definition yystos_ : list Z := [
  0; 10; 12; 32; 33; 34; 50; 52; 57; 58; 62; 63; 0; 33; 11; 24;
  51; 24; 56; 3; 35; 59; 35; 56; 56; 60; 61; 13; 14; 15; 16; 17;
  18; 19; 22; 23; 44; 45; 46; 47; 48; 49; 53; 54; 55; 56; 64; 65;
  66; 69; 5; 39; 4; 36; 6; 37; 45; 46; 47; 8; 40; 56; 36; 64;
  56; 56; 26; 27; 30; 7; 38; 60; 56; 35; 38; 67; 38; 38; 67; 38;
  9; 41; 20; 21; 25; 26; 28; 29; 30; 36; 42; 43; 68; 38; 38; 36 ].
