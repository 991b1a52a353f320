(** The default configuration compiled into the firmware, src/config.c 4-302 (tables, fuelling,
    ignition, limits, outputs and decoder).  Decimal literals are rounded once to binary32. *)
Require Import ZArith List Bool.
From Verif Require Import Res Word F32 Table Calc.
Import ListNotations.
Open Scope Z_scope.

(** Remaining array elements are zero-initialised. *)
Definition cells (l : list f32) : list f32 := l ++ repeat f_zero (24 - length l).
Definition grid (l : list (list f32)) : list (list f32) := map cells l ++ repeat (repeat f_zero 24) (24 - length l).

(** src/config.c 4-20 *)
Definition enrich_vs_temp_and_map : table2 :=
  Table2 (Axis 4 (cells [f_of_Z 20; f_of_Z 60; f_of_Z 80; f_of_Z 100]))
    (Axis 6 (cells [f_of_Z (-20); f_of_Z 0; f_of_Z 20; f_of_Z 40; f_of_Z 102; f_of_Z 120]))
    (grid [
      [flit 25 10; flit 18 10; flit 15 10; f_of_Z 1; f_of_Z 1; flit 12 10];
      [f_of_Z 2; flit 18 10; flit 13 10; f_of_Z 1; f_of_Z 1; flit 12 10];
      [flit 15 10; flit 15 10; flit 12 10; f_of_Z 1; f_of_Z 1; flit 12 10];
      [flit 12 10; flit 13 10; flit 11 10; f_of_Z 1; f_of_Z 1; flit 12 10]]).

(** src/config.c 23-40 *)
Definition tipin_vs_tpsrate_and_tps : table2 :=
  Table2 (Axis 5 (cells [f_of_Z 0; f_of_Z 10; f_of_Z 20; f_of_Z 50; f_of_Z 80]))
    (Axis 5 (cells [f_of_Z (-1000); f_of_Z 0; f_of_Z 100; f_of_Z 500; f_of_Z 1000]))
    (grid [
      [f_of_Z 0; f_of_Z 0; f_of_Z 0; f_of_Z 0; f_of_Z 0];
      [f_of_Z 0; f_of_Z 0; f_of_Z 0; f_of_Z 0; f_of_Z 0];
      [f_of_Z 0; f_of_Z 0; f_of_Z 0; f_of_Z 20; f_of_Z 30];
      [f_of_Z 0; f_of_Z 0; f_of_Z 0; f_of_Z 15; f_of_Z 20];
      [f_of_Z 0; f_of_Z 0; f_of_Z 0; f_of_Z 10; f_of_Z 10]]).

(** src/config.c 42-51 *)
Definition tipin_duration_vs_rpm : table1 :=
  Table1 (Axis 4 (cells [f_of_Z 0; f_of_Z 1000; f_of_Z 2000; f_of_Z 4000]))
    (cells [f_of_Z 300; f_of_Z 150; f_of_Z 80; f_of_Z 40]).

(** src/config.c 53-62 *)
Definition dwell_ms_vs_brv : table1 :=
  Table1 (Axis 4 (cells [f_of_Z 5; f_of_Z 10; f_of_Z 14; f_of_Z 18]))
    (cells [f_of_Z 6; f_of_Z 4; flit 25 10; flit 18 10]).

(** src/config.c 64-93 *)
Definition ve_vs_rpm_and_map : table2 :=
  Table2 (Axis 16 (cells [f_of_Z 20; f_of_Z 30; f_of_Z 40; f_of_Z 50; f_of_Z 60; f_of_Z 70; f_of_Z 80; f_of_Z 90; f_of_Z 100; f_of_Z 120; f_of_Z 140; f_of_Z 160; f_of_Z 180; f_of_Z 200; f_of_Z 220; f_of_Z 240]))
    (Axis 16 (cells [f_of_Z 250; f_of_Z 500; f_of_Z 900; f_of_Z 1200; f_of_Z 1600; f_of_Z 2000; f_of_Z 2400; f_of_Z 3000; f_of_Z 3600; f_of_Z 4000; f_of_Z 4400; f_of_Z 5200; f_of_Z 5800; f_of_Z 6400; f_of_Z 6800; f_of_Z 7200]))
    (grid [
      [f_of_Z 65; f_of_Z 30; f_of_Z 2; f_of_Z 2; f_of_Z 10; f_of_Z 10; f_of_Z 8; f_of_Z 8; f_of_Z 8; f_of_Z 8; f_of_Z 12; f_of_Z 12; f_of_Z 12; f_of_Z 12; f_of_Z 16; f_of_Z 16];
      [f_of_Z 65; f_of_Z 45; f_of_Z 15; f_of_Z 12; f_of_Z 8; f_of_Z 9; f_of_Z 8; f_of_Z 8; f_of_Z 23; f_of_Z 9; f_of_Z 11; f_of_Z 12; f_of_Z 12; f_of_Z 12; f_of_Z 26; f_of_Z 26];
      [f_of_Z 65; f_of_Z 45; f_of_Z 25; f_of_Z 25; f_of_Z 25; f_of_Z 18; f_of_Z 16; f_of_Z 24; f_of_Z 26; f_of_Z 40; f_of_Z 40; f_of_Z 43; f_of_Z 45; f_of_Z 45; f_of_Z 45; f_of_Z 45];
      [f_of_Z 65; f_of_Z 45; f_of_Z 50; f_of_Z 42; f_of_Z 40; f_of_Z 46; f_of_Z 46; f_of_Z 43; f_of_Z 36; f_of_Z 42; f_of_Z 48; f_of_Z 50; f_of_Z 52; f_of_Z 52; f_of_Z 52; f_of_Z 52];
      [f_of_Z 65; f_of_Z 45; f_of_Z 55; f_of_Z 53; f_of_Z 50; f_of_Z 53; f_of_Z 49; f_of_Z 57; f_of_Z 58; f_of_Z 61; f_of_Z 56; f_of_Z 52; f_of_Z 52; f_of_Z 52; f_of_Z 52; f_of_Z 52];
      [f_of_Z 65; f_of_Z 45; f_of_Z 63; f_of_Z 59; f_of_Z 62; f_of_Z 60; f_of_Z 63; f_of_Z 61; f_of_Z 67; f_of_Z 67; f_of_Z 66; f_of_Z 66; f_of_Z 67; f_of_Z 67; f_of_Z 67; f_of_Z 67];
      [f_of_Z 65; f_of_Z 45; f_of_Z 72; f_of_Z 65; f_of_Z 71; f_of_Z 65; f_of_Z 65; f_of_Z 66; f_of_Z 71; f_of_Z 70; f_of_Z 70; f_of_Z 74; f_of_Z 70; f_of_Z 68; f_of_Z 68; f_of_Z 68];
      [f_of_Z 65; f_of_Z 45; f_of_Z 72; f_of_Z 72; f_of_Z 75; f_of_Z 80; f_of_Z 78; f_of_Z 75; f_of_Z 80; f_of_Z 83; f_of_Z 80; f_of_Z 80; f_of_Z 70; f_of_Z 70; f_of_Z 70; f_of_Z 72];
      [f_of_Z 65; f_of_Z 45; f_of_Z 72; f_of_Z 72; f_of_Z 82; f_of_Z 79; f_of_Z 76; f_of_Z 76; f_of_Z 80; f_of_Z 80; f_of_Z 80; f_of_Z 80; f_of_Z 77; f_of_Z 77; f_of_Z 78; f_of_Z 78];
      [f_of_Z 65; f_of_Z 45; f_of_Z 72; f_of_Z 72; f_of_Z 83; f_of_Z 83; f_of_Z 83; f_of_Z 84; f_of_Z 81; f_of_Z 82; f_of_Z 82; f_of_Z 82; f_of_Z 80; f_of_Z 80; f_of_Z 80; f_of_Z 80];
      [f_of_Z 65; f_of_Z 45; f_of_Z 72; f_of_Z 72; f_of_Z 83; f_of_Z 83; f_of_Z 85; f_of_Z 83; f_of_Z 88; f_of_Z 89; f_of_Z 90; f_of_Z 90; f_of_Z 90; f_of_Z 90; f_of_Z 90; f_of_Z 90];
      [f_of_Z 65; f_of_Z 45; f_of_Z 72; f_of_Z 72; f_of_Z 83; f_of_Z 83; f_of_Z 90; f_of_Z 90; f_of_Z 90; f_of_Z 90; f_of_Z 90; f_of_Z 90; f_of_Z 90; f_of_Z 90; f_of_Z 90; f_of_Z 90];
      [f_of_Z 65; f_of_Z 45; f_of_Z 72; f_of_Z 72; f_of_Z 83; f_of_Z 83; f_of_Z 90; f_of_Z 90; f_of_Z 90; f_of_Z 90; f_of_Z 90; f_of_Z 90; f_of_Z 90; f_of_Z 90; f_of_Z 90; f_of_Z 90];
      [f_of_Z 65; f_of_Z 45; f_of_Z 72; f_of_Z 72; f_of_Z 83; f_of_Z 83; f_of_Z 90; f_of_Z 90; f_of_Z 90; f_of_Z 90; f_of_Z 90; f_of_Z 90; f_of_Z 90; f_of_Z 90; f_of_Z 90; f_of_Z 90];
      [f_of_Z 65; f_of_Z 45; f_of_Z 72; f_of_Z 72; f_of_Z 83; f_of_Z 83; f_of_Z 90; f_of_Z 90; f_of_Z 90; f_of_Z 90; f_of_Z 90; f_of_Z 90; f_of_Z 90; f_of_Z 90; f_of_Z 90; f_of_Z 90];
      [f_of_Z 65; f_of_Z 45; f_of_Z 72; f_of_Z 72; f_of_Z 83; f_of_Z 83; f_of_Z 90; f_of_Z 90; f_of_Z 90; f_of_Z 90; f_of_Z 90; f_of_Z 90; f_of_Z 90; f_of_Z 90; f_of_Z 90; f_of_Z 90]]).

(** src/config.c 95-123 *)
Definition lambda_vs_rpm_and_map : table2 :=
  Table2 (Axis 16 (cells [f_of_Z 20; f_of_Z 30; f_of_Z 40; f_of_Z 50; f_of_Z 60; f_of_Z 70; f_of_Z 80; f_of_Z 90; f_of_Z 100; f_of_Z 120; f_of_Z 140; f_of_Z 160; f_of_Z 180; f_of_Z 200; f_of_Z 220; f_of_Z 240]))
    (Axis 16 (cells [f_of_Z 250; f_of_Z 500; f_of_Z 900; f_of_Z 1200; f_of_Z 1600; f_of_Z 2000; f_of_Z 2400; f_of_Z 3000; f_of_Z 3600; f_of_Z 4000; f_of_Z 4400; f_of_Z 5200; f_of_Z 5800; f_of_Z 6400; f_of_Z 6800; f_of_Z 7200]))
    (grid [
      [f_of_Z 1; f_of_Z 1; f_of_Z 1; f_of_Z 1; f_of_Z 1; f_of_Z 1; f_of_Z 1; f_of_Z 1; f_of_Z 1; f_of_Z 1; f_of_Z 1; f_of_Z 1; f_of_Z 1; f_of_Z 1; f_of_Z 1; f_of_Z 1];
      [f_of_Z 1; f_of_Z 1; f_of_Z 1; f_of_Z 1; f_of_Z 1; f_of_Z 1; f_of_Z 1; f_of_Z 1; f_of_Z 1; f_of_Z 1; f_of_Z 1; f_of_Z 1; f_of_Z 1; f_of_Z 1; f_of_Z 1; f_of_Z 1];
      [f_of_Z 1; f_of_Z 1; f_of_Z 1; f_of_Z 1; f_of_Z 1; f_of_Z 1; f_of_Z 1; f_of_Z 1; f_of_Z 1; f_of_Z 1; f_of_Z 1; f_of_Z 1; f_of_Z 1; f_of_Z 1; f_of_Z 1; f_of_Z 1];
      [f_of_Z 1; f_of_Z 1; f_of_Z 1; f_of_Z 1; f_of_Z 1; f_of_Z 1; f_of_Z 1; f_of_Z 1; f_of_Z 1; f_of_Z 1; f_of_Z 1; f_of_Z 1; f_of_Z 1; f_of_Z 1; f_of_Z 1; f_of_Z 1];
      [f_of_Z 1; f_of_Z 1; f_of_Z 1; f_of_Z 1; f_of_Z 1; f_of_Z 1; f_of_Z 1; f_of_Z 1; f_of_Z 1; f_of_Z 1; f_of_Z 1; f_of_Z 1; f_of_Z 1; f_of_Z 1; f_of_Z 1; f_of_Z 1];
      [f_of_Z 1; f_of_Z 1; flit 92 100; flit 95 100; flit 9 10; flit 9 10; flit 9 10; flit 9 10; flit 9 10; flit 9 10; flit 9 10; flit 9 10; flit 9 10; flit 9 10; flit 9 10; flit 9 10];
      [flit 9 10; flit 9 10; flit 9 10; flit 9 10; flit 9 10; flit 9 10; flit 9 10; flit 9 10; flit 9 10; flit 9 10; flit 9 10; flit 9 10; flit 9 10; flit 9 10; flit 9 10; flit 9 10];
      [flit 85 100; flit 85 100; flit 85 100; flit 85 100; flit 85 100; flit 85 100; flit 85 100; flit 85 100; flit 85 100; flit 85 100; flit 85 100; flit 85 100; flit 85 100; flit 85 100; flit 85 100; flit 85 100];
      [flit 85 100; flit 85 100; flit 85 100; flit 85 100; flit 85 100; flit 85 100; flit 85 100; flit 85 100; flit 85 100; flit 85 100; flit 85 100; flit 85 100; flit 85 100; flit 85 100; flit 85 100; flit 85 100];
      [flit 84 100; flit 84 100; flit 84 100; flit 84 100; flit 84 100; flit 84 100; flit 84 100; flit 84 100; flit 84 100; flit 84 100; flit 84 100; flit 84 100; flit 84 100; flit 84 100; flit 84 100; flit 84 100];
      [flit 83 100; flit 83 100; flit 83 100; flit 83 100; flit 83 100; flit 82 100; flit 82 100; flit 82 100; flit 82 100; flit 82 100; flit 82 100; flit 82 100; flit 82 100; flit 82 100; flit 82 100; flit 82 100];
      [flit 83 100; flit 83 100; flit 83 100; flit 83 100; flit 83 100; flit 82 100; flit 82 100; flit 82 100; flit 82 100; flit 82 100; flit 82 100; flit 82 100; flit 82 100; flit 82 100; flit 82 100; flit 82 100];
      [flit 81 100; flit 81 100; flit 81 100; flit 81 100; flit 81 100; flit 76 100; flit 76 100; flit 76 100; flit 76 100; flit 76 100; flit 76 100; flit 76 100; flit 76 100; flit 76 100; flit 76 100; flit 76 100];
      [flit 73 100; flit 73 100; flit 73 100; flit 81 100; flit 81 100; flit 73 100; flit 73 100; flit 73 100; flit 73 100; flit 73 100; flit 73 100; flit 73 100; flit 73 100; flit 73 100; flit 73 100; flit 73 100];
      [flit 75 100; flit 75 100; flit 75 100; flit 73 100; flit 73 100; flit 73 100; flit 73 100; flit 73 100; flit 73 100; flit 73 100; flit 73 100; flit 73 100; flit 73 100; flit 73 100; flit 73 100; flit 73 100];
      [flit 75 100; flit 75 100; flit 75 100; flit 73 100; flit 73 100; flit 73 100; flit 73 100; flit 73 100; flit 73 100; flit 73 100; flit 73 100; flit 73 100; flit 73 100; flit 73 100; flit 73 100; flit 73 100]]).

(** src/config.c 125-155 *)
Definition timing_vs_rpm_and_map : table2 :=
  Table2 (Axis 16 (cells [f_of_Z 20; f_of_Z 30; f_of_Z 40; f_of_Z 50; f_of_Z 60; f_of_Z 70; f_of_Z 80; f_of_Z 90; f_of_Z 100; f_of_Z 120; f_of_Z 140; f_of_Z 160; f_of_Z 180; f_of_Z 200; f_of_Z 220; f_of_Z 240]))
    (Axis 16 (cells [f_of_Z 250; f_of_Z 500; f_of_Z 900; f_of_Z 1200; f_of_Z 1600; f_of_Z 2000; f_of_Z 2400; f_of_Z 3000; f_of_Z 3600; f_of_Z 4000; f_of_Z 4400; f_of_Z 5200; f_of_Z 5800; f_of_Z 6400; f_of_Z 6800; f_of_Z 7200]))
    (grid [
      [f_of_Z 12; f_of_Z 15; f_of_Z 18; f_of_Z 28; f_of_Z 32; f_of_Z 35; f_of_Z 42; f_of_Z 42; f_of_Z 42; f_of_Z 42; f_of_Z 42; f_of_Z 42; f_of_Z 42; f_of_Z 42; f_of_Z 42; f_of_Z 42];
      [f_of_Z 12; f_of_Z 15; f_of_Z 18; f_of_Z 24; f_of_Z 28; f_of_Z 32; f_of_Z 36; f_of_Z 36; f_of_Z 38; f_of_Z 38; f_of_Z 40; f_of_Z 40; f_of_Z 40; f_of_Z 40; f_of_Z 40; f_of_Z 40];
      [f_of_Z 12; f_of_Z 15; f_of_Z 18; f_of_Z 24; f_of_Z 25; f_of_Z 30; f_of_Z 32; f_of_Z 35; f_of_Z 36; f_of_Z 36; f_of_Z 38; f_of_Z 40; f_of_Z 40; f_of_Z 40; f_of_Z 40; f_of_Z 40];
      [f_of_Z 10; f_of_Z 15; f_of_Z 15; f_of_Z 24; f_of_Z 24; f_of_Z 28; f_of_Z 30; f_of_Z 32; f_of_Z 34; f_of_Z 35; f_of_Z 35; f_of_Z 35; f_of_Z 35; f_of_Z 35; f_of_Z 35; f_of_Z 35];
      [f_of_Z 10; f_of_Z 15; f_of_Z 15; f_of_Z 20; f_of_Z 22; f_of_Z 24; f_of_Z 28; f_of_Z 30; f_of_Z 34; f_of_Z 34; f_of_Z 34; f_of_Z 34; f_of_Z 34; f_of_Z 34; f_of_Z 34; f_of_Z 34];
      [f_of_Z 10; f_of_Z 15; f_of_Z 15; f_of_Z 17; f_of_Z 17; f_of_Z 22; f_of_Z 26; f_of_Z 28; f_of_Z 32; f_of_Z 32; f_of_Z 32; f_of_Z 32; f_of_Z 32; f_of_Z 32; f_of_Z 32; f_of_Z 32];
      [f_of_Z 10; f_of_Z 10; f_of_Z 10; f_of_Z 15; f_of_Z 18; f_of_Z 18; f_of_Z 24; f_of_Z 26; f_of_Z 31; f_of_Z 31; f_of_Z 31; f_of_Z 31; f_of_Z 31; f_of_Z 31; f_of_Z 31; f_of_Z 31];
      [f_of_Z 8; f_of_Z 10; f_of_Z 10; f_of_Z 12; f_of_Z 15; f_of_Z 15; f_of_Z 22; f_of_Z 28; f_of_Z 30; f_of_Z 32; f_of_Z 32; f_of_Z 32; f_of_Z 32; f_of_Z 32; f_of_Z 32; f_of_Z 32];
      [f_of_Z 8; f_of_Z 8; f_of_Z 8; f_of_Z 8; f_of_Z 10; f_of_Z 18; f_of_Z 24; f_of_Z 28; f_of_Z 28; f_of_Z 30; f_of_Z 30; f_of_Z 30; f_of_Z 30; f_of_Z 30; f_of_Z 30; f_of_Z 30];
      [f_of_Z 8; f_of_Z 10; f_of_Z 10; f_of_Z 12; f_of_Z 13; f_of_Z 15; f_of_Z 22; f_of_Z 25; f_of_Z 26; f_of_Z 28; f_of_Z 28; f_of_Z 28; f_of_Z 28; f_of_Z 28; f_of_Z 28; f_of_Z 28];
      [f_of_Z 8; f_of_Z 10; f_of_Z 10; f_of_Z 12; f_of_Z 13; f_of_Z 15; f_of_Z 18; f_of_Z 21; f_of_Z 23; f_of_Z 24; f_of_Z 24; f_of_Z 24; f_of_Z 24; f_of_Z 24; f_of_Z 24; f_of_Z 24];
      [f_of_Z 8; f_of_Z 10; f_of_Z 10; f_of_Z 12; f_of_Z 13; f_of_Z 13; f_of_Z 15; f_of_Z 17; f_of_Z 20; f_of_Z 20; f_of_Z 21; f_of_Z 21; f_of_Z 21; f_of_Z 21; f_of_Z 21; f_of_Z 21];
      [f_of_Z 8; f_of_Z 10; f_of_Z 10; f_of_Z 12; f_of_Z 13; f_of_Z 13; f_of_Z 15; f_of_Z 16; f_of_Z 16; f_of_Z 18; f_of_Z 18; f_of_Z 18; f_of_Z 18; f_of_Z 18; f_of_Z 18; f_of_Z 18];
      [f_of_Z 8; f_of_Z 10; f_of_Z 10; f_of_Z 12; f_of_Z 12; f_of_Z 13; f_of_Z 13; f_of_Z 13; f_of_Z 15; f_of_Z 15; f_of_Z 15; f_of_Z 15; f_of_Z 15; f_of_Z 15; f_of_Z 15; f_of_Z 15];
      [f_of_Z 8; f_of_Z 10; f_of_Z 10; f_of_Z 10; f_of_Z 10; f_of_Z 11; f_of_Z 13; f_of_Z 13; f_of_Z 13; f_of_Z 13; f_of_Z 13; f_of_Z 13; f_of_Z 13; f_of_Z 13; f_of_Z 13; f_of_Z 13];
      [f_of_Z 8; f_of_Z 10; f_of_Z 10; f_of_Z 10; f_of_Z 10; f_of_Z 10; f_of_Z 10; f_of_Z 10; f_of_Z 10; f_of_Z 10; f_of_Z 10; f_of_Z 10; f_of_Z 10; f_of_Z 8; f_of_Z 8; f_of_Z 8]]).

(** src/config.c 157-165 *)
Definition injector_dead_time : table1 :=
  Table1 (Axis 16 (cells [flit 85 10; f_of_Z 9; flit 95 10; f_of_Z 10; flit 105 10; f_of_Z 11; flit 115 10; f_of_Z 12; flit 125 10; f_of_Z 13; flit 135 10; f_of_Z 14; flit 145 10; f_of_Z 15; flit 155 10; f_of_Z 16]))
    (cells [flit 297 100; flit 266 100; flit 239 100; flit 2155 1000; flit 196 100; flit 182 100; flit 17 10; flit 159 100; flit 148 100; flit 14 10; flit 132 100; flit 125 100; flit 119 100; flit 111 100; flit 105 100; f_of_Z 1]).

(** src/config.c 167-173 *)
Definition injector_pw_correction : table1 :=
  Table1 (Axis 6 (cells [f_of_Z 0; flit 333 1000; flit 521 1000; flit 816 1000; flit 1278 1000; f_of_Z 2]))
    (cells [f_of_Z 0; flit 9 100; flit 86 1000; flit 38 1000; flit 23 1000; f_of_Z 0]).

(** src/config.c 175-183 *)
Definition boost_control_pwm : table1 :=
  Table1 (Axis 6 (cells [f_of_Z 1000; f_of_Z 2000; f_of_Z 3000; f_of_Z 4000; f_of_Z 5000; f_of_Z 6000]))
    (cells [f_of_Z 50; f_of_Z 50; f_of_Z 50; f_of_Z 50; f_of_Z 50; f_of_Z 50]).

(** src/config.c 255-289: tables in use, fuelling, ignition and limit settings. *)
Definition default_fueling : fueling :=
  Fueling (f_of_Z 1015) (f_of_Z 500) (flit 147 10) 1 0 (f_of_Z 400) (f_of_Z 20) (flit 25 10) (flit 12922 10000000) (flit 755 1000).
Definition default_calc : ccfg :=
  CCfg (Some timing_vs_rpm_and_map) (Some ve_vs_rpm_and_map) (Some lambda_vs_rpm_and_map)
       (Some injector_dead_time) (Some injector_pw_correction) (Some enrich_vs_temp_and_map) (Some dwell_ms_vs_brv)
       (Some tipin_vs_tpsrate_and_tps) (Some tipin_duration_vs_rpm)
       default_fueling BRV f_zero 500 (f_of_Z 260) 6700 6200.
