(** The tables of GRR18 and which of them [computeLoads] uses, libPSI/MPSI/Grr18/Grr18Common.cpp. *)
From Verif Require Import Base Grr18_Model GrrNoise_Model.
Local Open Scope N_scope.

(** [lookups], Grr18Common.cpp:129-248: mN, mM, mEps (in thousandths), mStart, mLookups. *)
Definition tables : list (N * N * N * Z * list N) :=
  [(256, 32, 500, (-10)%Z, [28; 28; 28; 28; 28; 28; 28; 28; 28; 28; 28; 28; 28; 28; 28; 28; 28; 28; 28; 28; 28; 29; 29; 29; 29; 30; 30; 30; 30; 30; 31; 31; 31; 31; 32; 32; 32; 32; 33; 33; 33; 33; 34; 34; 34; 34; 35; 35; 35; 35; 35; 35; 35; 35; 35; 35; 35; 35; 35; 35; 35]);
   (256, 32, 1000, (-10)%Z, [22; 22; 22; 22; 22; 22; 22; 22; 22; 22; 22; 22; 22; 22; 22; 23; 23; 23; 23; 24; 24; 24; 25; 25; 26; 26; 27; 27; 27; 28; 28; 29; 29; 29; 30; 30; 31; 31; 31; 32; 32; 33; 33; 33; 34; 34; 35; 35; 35; 35; 35; 35; 35; 35; 35; 35; 35; 35; 35; 35; 35]);
   (256, 32, 2000, (-10)%Z, [15; 15; 15; 15; 15; 15; 15; 15; 15; 15; 15; 15; 15; 15; 16; 16; 17; 17; 18; 18; 19; 20; 20; 21; 22; 22; 23; 23; 24; 25; 25; 26; 27; 27; 28; 28; 29; 29; 30; 31; 31; 32; 32; 33; 33; 34; 35; 35; 35; 35; 35; 35; 35; 35; 35; 35; 35; 35; 35; 35; 35]);
   (256, 32, 4000, (-10)%Z, [8; 8; 8; 8; 8; 8; 8; 8; 8; 8; 8; 8; 9; 9; 10; 11; 12; 12; 13; 14; 15; 16; 16; 17; 18; 19; 20; 20; 21; 22; 23; 23; 24; 25; 26; 27; 27; 28; 29; 29; 30; 31; 32; 32; 33; 34; 35; 35; 35; 35; 35; 35; 35; 35; 35; 35; 35; 35; 35; 35; 35]);
   (256, 25, 500, (-10)%Z, [31; 31; 31; 31; 31; 31; 31; 31; 31; 31; 31; 31; 31; 31; 31; 31; 31; 31; 31; 31; 31; 31; 32; 32; 32; 32; 33; 33; 33; 33; 34; 34; 34; 34; 35; 35; 35; 35; 36; 36; 36; 36; 37; 37; 37; 37; 38; 38; 38; 38; 39; 39; 39; 39; 39; 39; 39; 39; 39; 39; 39]);
   (256, 25, 1000, (-10)%Z, [24; 24; 24; 24; 24; 24; 24; 24; 24; 24; 24; 24; 24; 24; 24; 25; 25; 25; 25; 26; 26; 26; 27; 27; 28; 28; 29; 29; 29; 30; 30; 31; 31; 32; 32; 32; 33; 33; 34; 34; 35; 35; 35; 36; 36; 37; 37; 37; 38; 38; 39; 39; 39; 39; 39; 39; 39; 39; 39; 39; 39]);
   (256, 25, 2000, (-10)%Z, [16; 16; 16; 16; 16; 16; 16; 16; 16; 16; 16; 16; 16; 17; 17; 17; 18; 18; 19; 20; 20; 21; 21; 22; 23; 23; 24; 25; 25; 26; 27; 27; 28; 28; 29; 30; 30; 31; 32; 32; 33; 33; 34; 35; 35; 36; 36; 37; 37; 38; 39; 39; 39; 39; 39; 39; 39; 39; 39; 39; 39]);
   (256, 25, 4000, (-10)%Z, [8; 8; 8; 8; 8; 8; 8; 8; 8; 8; 8; 9; 9; 10; 10; 11; 12; 13; 14; 14; 15; 16; 17; 18; 18; 19; 20; 21; 22; 23; 23; 24; 25; 26; 27; 27; 28; 29; 30; 30; 31; 32; 33; 33; 34; 35; 36; 36; 37; 38; 39; 39; 39; 39; 39; 39; 39; 39; 39; 39; 39]);
   (256, 21, 500, (-10)%Z, [34; 34; 34; 34; 34; 34; 34; 34; 34; 34; 34; 34; 34; 34; 34; 34; 34; 34; 34; 34; 34; 34; 34; 34; 35; 35; 35; 35; 36; 36; 36; 36; 37; 37; 37; 38; 38; 38; 38; 39; 39; 39; 39; 40; 40; 40; 41; 41; 41; 41; 42; 42; 42; 42; 43; 43; 43; 43; 43; 43; 43]);
   (256, 21, 1000, (-10)%Z, [26; 26; 26; 26; 26; 26; 26; 26; 26; 26; 26; 26; 26; 26; 27; 27; 27; 27; 27; 28; 28; 28; 29; 29; 29; 30; 30; 31; 31; 32; 32; 33; 33; 34; 34; 34; 35; 35; 36; 36; 37; 37; 38; 38; 38; 39; 39; 40; 40; 40; 41; 41; 42; 42; 43; 43; 43; 43; 43; 43; 43]);
   (256, 21, 2000, (-10)%Z, [17; 17; 17; 17; 17; 17; 17; 17; 17; 17; 17; 17; 17; 18; 18; 18; 19; 19; 20; 20; 21; 22; 22; 23; 24; 24; 25; 26; 26; 27; 28; 28; 29; 30; 30; 31; 32; 32; 33; 33; 34; 35; 35; 36; 37; 37; 38; 38; 39; 40; 40; 41; 41; 42; 43; 43; 43; 43; 43; 43; 43]);
   (256, 21, 4000, (-10)%Z, [9; 9; 9; 9; 9; 9; 9; 9; 9; 9; 9; 9; 10; 10; 11; 12; 12; 13; 14; 15; 16; 16; 17; 18; 19; 20; 21; 21; 22; 23; 24; 25; 26; 26; 27; 28; 29; 30; 30; 31; 32; 33; 33; 34; 35; 36; 37; 37; 38; 39; 40; 40; 41; 42; 43; 43; 43; 43; 43; 43; 43]);
   (256, 18, 500, (-10)%Z, [36; 36; 36; 36; 36; 36; 36; 36; 36; 36; 36; 36; 36; 36; 36; 36; 36; 36; 36; 36; 37; 37; 37; 37; 37; 37; 38; 38; 38; 38; 39; 39; 39; 39; 40; 40; 40; 41; 41; 41; 41; 42; 42; 42; 43; 43; 43; 43; 44; 44; 44; 44; 45; 45; 45; 46; 46; 46; 46; 47; 47]);
   (256, 18, 1000, (-10)%Z, [28; 28; 28; 28; 28; 28; 28; 28; 28; 28; 28; 28; 28; 28; 28; 29; 29; 29; 29; 29; 30; 30; 30; 31; 31; 31; 32; 32; 33; 33; 34; 34; 35; 35; 36; 36; 37; 37; 38; 38; 38; 39; 39; 40; 40; 41; 41; 42; 42; 42; 43; 43; 44; 44; 45; 45; 46; 46; 46; 47; 47]);
   (256, 18, 2000, (-10)%Z, [18; 18; 18; 18; 18; 18; 18; 18; 18; 18; 18; 18; 18; 19; 19; 19; 20; 20; 21; 21; 22; 22; 23; 24; 24; 25; 26; 26; 27; 28; 29; 29; 30; 31; 31; 32; 33; 33; 34; 35; 35; 36; 37; 37; 38; 38; 39; 40; 40; 41; 42; 42; 43; 43; 44; 45; 45; 46; 46; 47; 47]);
   (256, 18, 4000, (-10)%Z, [9; 9; 9; 9; 9; 9; 9; 9; 9; 9; 9; 9; 10; 11; 11; 12; 13; 13; 14; 15; 16; 17; 17; 18; 19; 20; 21; 22; 23; 23; 24; 25; 26; 27; 28; 28; 29; 30; 31; 32; 33; 33; 34; 35; 36; 37; 37; 38; 39; 40; 40; 41; 42; 43; 43; 44; 45; 46; 46; 47; 47]);
   (4096, 512, 500, (-10)%Z, [30; 30; 30; 30; 30; 30; 30; 30; 30; 30; 30; 30; 30; 30; 30; 30; 30; 30; 30; 30; 30; 31; 31; 31; 31; 31; 32; 32; 32; 32; 33; 33; 33; 33; 34; 34; 34; 34; 35; 35; 35; 35; 36; 36; 36; 36; 37; 37; 37; 37; 38; 38; 38; 38; 38; 38; 38; 38; 38; 38; 38]);
   (4096, 512, 1000, (-10)%Z, [24; 24; 24; 24; 24; 24; 24; 24; 24; 24; 24; 24; 24; 24; 24; 24; 24; 25; 25; 25; 26; 26; 26; 27; 27; 28; 28; 29; 29; 29; 30; 30; 31; 31; 31; 32; 32; 33; 33; 33; 34; 34; 35; 35; 35; 36; 36; 37; 37; 37; 38; 38; 38; 38; 38; 38; 38; 38; 38; 38; 38]);
   (4096, 512, 2000, (-10)%Z, [16; 16; 16; 16; 16; 16; 16; 16; 16; 16; 16; 16; 16; 16; 17; 17; 18; 18; 19; 20; 20; 21; 21; 22; 23; 23; 24; 25; 25; 26; 26; 27; 28; 28; 29; 29; 30; 31; 31; 32; 32; 33; 33; 34; 35; 35; 36; 36; 37; 37; 38; 38; 38; 38; 38; 38; 38; 38; 38; 38; 38]);
   (4096, 512, 4000, (-10)%Z, [8; 8; 8; 8; 8; 8; 8; 8; 8; 8; 8; 9; 9; 10; 11; 11; 12; 13; 14; 15; 15; 16; 17; 18; 19; 19; 20; 21; 22; 23; 23; 24; 25; 26; 26; 27; 28; 29; 29; 30; 31; 32; 32; 33; 34; 35; 35; 36; 37; 37; 38; 38; 38; 38; 38; 38; 38; 38; 38; 38; 38]);
   (4096, 409, 500, (-10)%Z, [33; 33; 33; 33; 33; 33; 33; 33; 33; 33; 33; 33; 33; 33; 33; 33; 33; 33; 33; 33; 33; 34; 34; 34; 34; 34; 35; 35; 35; 36; 36; 36; 36; 37; 37; 37; 37; 38; 38; 38; 38; 39; 39; 39; 39; 40; 40; 40; 41; 41; 41; 41; 42; 42; 42; 42; 42; 42; 42; 42; 42]);
   (4096, 409, 1000, (-10)%Z, [26; 26; 26; 26; 26; 26; 26; 26; 26; 26; 26; 26; 26; 26; 26; 26; 26; 27; 27; 27; 28; 28; 28; 29; 29; 30; 30; 31; 31; 32; 32; 32; 33; 33; 34; 34; 35; 35; 35; 36; 36; 37; 37; 38; 38; 38; 39; 39; 40; 40; 40; 41; 41; 42; 42; 42; 42; 42; 42; 42; 42]);
   (4096, 409, 2000, (-10)%Z, [17; 17; 17; 17; 17; 17; 17; 17; 17; 17; 17; 17; 17; 18; 18; 18; 19; 19; 20; 21; 21; 22; 22; 23; 24; 24; 25; 26; 26; 27; 28; 28; 29; 30; 30; 31; 31; 32; 33; 33; 34; 35; 35; 36; 36; 37; 38; 38; 39; 39; 40; 40; 41; 42; 42; 42; 42; 42; 42; 42; 42]);
   (4096, 409, 4000, (-10)%Z, [9; 9; 9; 9; 9; 9; 9; 9; 9; 9; 9; 9; 10; 10; 11; 12; 13; 13; 14; 15; 16; 17; 17; 18; 19; 20; 21; 22; 22; 23; 24; 25; 26; 26; 27; 28; 29; 30; 30; 31; 32; 33; 33; 34; 35; 36; 36; 37; 38; 39; 39; 40; 41; 42; 42; 42; 42; 42; 42; 42; 42]);
   (4096, 341, 500, (-10)%Z, [36; 36; 36; 36; 36; 36; 36; 36; 36; 36; 36; 36; 36; 36; 36; 36; 36; 36; 36; 36; 36; 36; 37; 37; 37; 37; 37; 38; 38; 38; 39; 39; 39; 39; 40; 40; 40; 41; 41; 41; 41; 42; 42; 42; 42; 43; 43; 43; 44; 44; 44; 44; 45; 45; 45; 45; 46; 46; 46; 46; 47]);
   (4096, 341, 1000, (-10)%Z, [28; 28; 28; 28; 28; 28; 28; 28; 28; 28; 28; 28; 28; 28; 28; 28; 28; 29; 29; 29; 30; 30; 30; 31; 31; 32; 32; 32; 33; 33; 34; 34; 35; 35; 36; 36; 37; 37; 38; 38; 38; 39; 39; 40; 40; 41; 41; 42; 42; 42; 43; 43; 44; 44; 45; 45; 45; 46; 46; 46; 47]);
   (4096, 341, 2000, (-10)%Z, [18; 18; 18; 18; 18; 18; 18; 18; 18; 18; 18; 18; 18; 19; 19; 19; 20; 20; 21; 22; 22; 23; 23; 24; 25; 25; 26; 27; 27; 28; 29; 29; 30; 31; 31; 32; 33; 33; 34; 35; 35; 36; 37; 37; 38; 38; 39; 40; 40; 41; 42; 42; 43; 43; 44; 45; 45; 46; 46; 47; 47]);
   (4096, 341, 4000, (-10)%Z, [9; 9; 9; 9; 9; 9; 9; 9; 9; 9; 9; 10; 10; 11; 11; 12; 13; 14; 15; 15; 16; 17; 18; 19; 19; 20; 21; 22; 23; 24; 25; 25; 26; 27; 28; 29; 29; 30; 31; 32; 33; 33; 34; 35; 36; 37; 37; 38; 39; 40; 40; 41; 42; 43; 43; 44; 45; 46; 46; 47; 47]);
   (4096, 292, 500, (-10)%Z, [39; 39; 39; 39; 39; 39; 39; 39; 39; 39; 39; 39; 39; 39; 39; 39; 39; 39; 39; 39; 39; 39; 39; 39; 40; 40; 40; 40; 41; 41; 41; 41; 42; 42; 42; 43; 43; 43; 43; 44; 44; 44; 45; 45; 45; 46; 46; 46; 46; 47; 47; 47; 47; 48; 48; 48; 49; 49; 49; 49; 50]);
   (4096, 292, 1000, (-10)%Z, [30; 30; 30; 30; 30; 30; 30; 30; 30; 30; 30; 30; 30; 30; 30; 30; 30; 31; 31; 31; 31; 32; 32; 32; 33; 33; 34; 34; 35; 35; 36; 36; 37; 37; 38; 38; 39; 39; 39; 40; 40; 41; 41; 42; 42; 43; 43; 44; 44; 45; 45; 45; 46; 46; 47; 47; 48; 48; 49; 49; 49]);
   (4096, 292, 2000, (-10)%Z, [19; 19; 19; 19; 19; 19; 19; 19; 19; 19; 19; 19; 20; 20; 20; 20; 21; 21; 22; 22; 23; 24; 24; 25; 26; 26; 27; 28; 28; 29; 30; 30; 31; 32; 32; 33; 34; 34; 35; 36; 37; 37; 38; 38; 39; 40; 40; 41; 42; 42; 43; 44; 44; 45; 45; 46; 47; 47; 48; 49; 49]);
   (4096, 292, 4000, (-10)%Z, [10; 10; 10; 10; 10; 10; 10; 10; 10; 10; 10; 10; 11; 11; 12; 13; 13; 14; 15; 16; 16; 17; 18; 19; 20; 21; 22; 22; 23; 24; 25; 26; 27; 27; 28; 29; 30; 31; 32; 32; 33; 34; 35; 36; 36; 37; 38; 39; 40; 40; 41; 42; 43; 44; 44; 45; 46; 47; 47; 48; 49]);
   (65536, 8192, 500, (-10)%Z, [31; 31; 31; 31; 31; 31; 31; 31; 31; 31; 31; 31; 31; 31; 31; 31; 31; 31; 31; 32; 32; 32; 32; 32; 33; 33; 33; 33; 34; 34; 34; 34; 35; 35; 35; 35; 36; 36; 36; 36; 37; 37; 37; 37; 38; 38; 38; 38; 39; 39; 39; 39; 39; 39; 40; 40; 40; 40; 40; 40; 40]);
   (65536, 8192, 1000, (-10)%Z, [25; 25; 25; 25; 25; 25; 25; 25; 25; 25; 25; 25; 25; 25; 25; 25; 26; 26; 26; 26; 27; 27; 28; 28; 28; 29; 29; 30; 30; 31; 31; 31; 32; 32; 33; 33; 33; 34; 34; 35; 35; 35; 36; 36; 37; 37; 37; 38; 38; 38; 39; 39; 39; 40; 40; 40; 40; 40; 40; 40; 40]);
   (65536, 8192, 2000, (-10)%Z, [17; 17; 17; 17; 17; 17; 17; 17; 17; 17; 17; 17; 17; 17; 18; 18; 19; 19; 20; 20; 21; 22; 22; 23; 24; 24; 25; 25; 26; 27; 27; 28; 28; 29; 30; 30; 31; 31; 32; 33; 33; 34; 34; 35; 35; 36; 37; 37; 38; 38; 39; 39; 39; 40; 40; 40; 40; 40; 40; 40; 40]);
   (65536, 8192, 4000, (-10)%Z, [9; 9; 9; 9; 9; 9; 9; 9; 9; 9; 9; 9; 10; 11; 11; 12; 13; 14; 14; 15; 16; 17; 18; 18; 19; 20; 21; 22; 22; 23; 24; 25; 25; 26; 27; 28; 28; 29; 30; 31; 31; 32; 33; 34; 34; 35; 36; 37; 37; 38; 39; 39; 40; 40; 40; 40; 40; 40; 40; 40; 40]);
   (65536, 6553, 500, (-10)%Z, [34; 34; 34; 34; 34; 34; 34; 34; 34; 34; 34; 34; 34; 34; 34; 34; 34; 35; 35; 35; 35; 35; 35; 36; 36; 36; 36; 37; 37; 37; 37; 38; 38; 38; 38; 39; 39; 39; 39; 40; 40; 40; 40; 41; 41; 41; 41; 42; 42; 42; 42; 43; 43; 43; 43; 44; 44; 44; 44; 44; 44]);
   (65536, 6553, 1000, (-10)%Z, [27; 27; 27; 27; 27; 27; 27; 27; 27; 27; 27; 27; 27; 27; 27; 28; 28; 28; 28; 29; 29; 29; 30; 30; 31; 31; 31; 32; 32; 33; 33; 34; 34; 35; 35; 35; 36; 36; 37; 37; 38; 38; 38; 39; 39; 40; 40; 40; 41; 41; 42; 42; 42; 43; 43; 44; 44; 44; 44; 44; 44]);
   (65536, 6553, 2000, (-10)%Z, [18; 18; 18; 18; 18; 18; 18; 18; 18; 18; 18; 18; 18; 19; 19; 19; 20; 20; 21; 22; 22; 23; 23; 24; 25; 25; 26; 27; 27; 28; 29; 29; 30; 30; 31; 32; 32; 33; 34; 34; 35; 35; 36; 37; 37; 38; 38; 39; 40; 40; 41; 41; 42; 42; 43; 44; 44; 44; 44; 44; 44]);
   (65536, 6553, 4000, (-10)%Z, [10; 10; 10; 10; 10; 10; 10; 10; 10; 10; 10; 10; 10; 11; 12; 12; 13; 14; 15; 16; 16; 17; 18; 19; 20; 21; 21; 22; 23; 24; 25; 25; 26; 27; 28; 29; 29; 30; 31; 32; 32; 33; 34; 35; 35; 36; 37; 38; 38; 39; 40; 41; 41; 42; 43; 44; 44; 44; 44; 44; 44]);
   (65536, 5461, 500, (-10)%Z, [38; 38; 38; 38; 38; 38; 38; 38; 38; 38; 38; 38; 38; 38; 38; 38; 38; 38; 38; 38; 38; 38; 38; 38; 39; 39; 39; 39; 40; 40; 40; 40; 41; 41; 41; 42; 42; 42; 42; 43; 43; 43; 43; 44; 44; 44; 45; 45; 45; 45; 46; 46; 46; 46; 47; 47; 47; 47; 48; 48; 48]);
   (65536, 5461, 1000, (-10)%Z, [30; 30; 30; 30; 30; 30; 30; 30; 30; 30; 30; 30; 30; 30; 30; 30; 30; 30; 30; 31; 31; 31; 32; 32; 33; 33; 33; 34; 34; 35; 35; 36; 36; 37; 37; 38; 38; 38; 39; 39; 40; 40; 41; 41; 42; 42; 42; 43; 43; 44; 44; 45; 45; 45; 46; 46; 47; 47; 47; 48; 48]);
   (65536, 5461, 2000, (-10)%Z, [19; 19; 19; 19; 19; 19; 19; 19; 19; 19; 19; 19; 20; 20; 20; 21; 21; 21; 22; 23; 23; 24; 24; 25; 26; 26; 27; 28; 28; 29; 30; 30; 31; 32; 32; 33; 34; 34; 35; 36; 36; 37; 37; 38; 39; 39; 40; 41; 41; 42; 42; 43; 44; 44; 45; 45; 46; 47; 47; 48; 48]);
   (65536, 5461, 4000, (-10)%Z, [10; 10; 10; 10; 10; 10; 10; 10; 10; 10; 10; 10; 11; 11; 12; 13; 14; 14; 15; 16; 17; 18; 18; 19; 20; 21; 22; 23; 23; 24; 25; 26; 27; 28; 28; 29; 30; 31; 32; 32; 33; 34; 35; 36; 36; 37; 38; 39; 39; 40; 41; 42; 42; 43; 44; 45; 45; 46; 47; 48; 48]);
   (65536, 4681, 500, (-10)%Z, [40; 40; 40; 40; 40; 40; 40; 40; 40; 40; 40; 40; 40; 40; 40; 40; 41; 41; 41; 41; 41; 41; 41; 41; 41; 42; 42; 42; 42; 43; 43; 43; 43; 44; 44; 44; 45; 45; 45; 45; 46; 46; 46; 47; 47; 47; 47; 48; 48; 48; 49; 49; 49; 49; 50; 50; 50; 51; 51; 51; 51]);
   (65536, 4681, 1000, (-10)%Z, [32; 32; 32; 32; 32; 32; 32; 32; 32; 32; 32; 32; 32; 32; 32; 32; 32; 32; 32; 33; 33; 33; 34; 34; 34; 35; 35; 36; 36; 37; 37; 37; 38; 38; 39; 39; 40; 40; 41; 41; 42; 42; 43; 43; 44; 44; 45; 45; 45; 46; 46; 47; 47; 48; 48; 49; 49; 49; 50; 50; 51]);
   (65536, 4681, 2000, (-10)%Z, [20; 20; 20; 20; 20; 20; 20; 20; 20; 20; 20; 21; 21; 21; 21; 22; 22; 22; 23; 23; 24; 25; 25; 26; 27; 27; 28; 29; 29; 30; 31; 31; 32; 33; 33; 34; 35; 35; 36; 37; 37; 38; 39; 39; 40; 41; 41; 42; 43; 43; 44; 44; 45; 46; 46; 47; 48; 48; 49; 49; 50]);
   (65536, 4681, 4000, (-10)%Z, [10; 10; 10; 10; 10; 10; 10; 10; 10; 10; 10; 11; 11; 12; 13; 13; 14; 15; 15; 16; 17; 18; 19; 20; 20; 21; 22; 23; 24; 25; 26; 26; 27; 28; 29; 30; 31; 31; 32; 33; 34; 35; 35; 36; 37; 38; 39; 39; 40; 41; 42; 43; 43; 44; 45; 46; 46; 47; 48; 49; 49]);
   (1048576, 131072, 500, (-10)%Z, [32; 32; 32; 32; 32; 32; 32; 32; 32; 32; 32; 32; 32; 32; 33; 33; 33; 33; 33; 33; 33; 33; 34; 34; 34; 34; 35; 35; 35; 35; 36; 36; 36; 36; 36; 37; 37; 37; 37; 38; 38; 38; 38; 39; 39; 39; 39; 40; 40; 40; 40; 40; 41; 41; 41; 41; 41; 41; 41; 41; 41]);
   (1048576, 131072, 1000, (-10)%Z, [26; 26; 26; 26; 26; 26; 26; 26; 26; 26; 26; 26; 26; 26; 26; 27; 27; 27; 27; 28; 28; 28; 29; 29; 30; 30; 30; 31; 31; 32; 32; 33; 33; 33; 34; 34; 35; 35; 35; 36; 36; 36; 37; 37; 38; 38; 38; 39; 39; 40; 40; 40; 41; 41; 41; 41; 41; 41; 41; 41; 41]);
   (1048576, 131072, 2000, (-10)%Z, [18; 18; 18; 18; 18; 18; 18; 18; 18; 18; 18; 18; 18; 18; 19; 19; 20; 20; 21; 21; 22; 23; 23; 24; 24; 25; 26; 26; 27; 27; 28; 29; 29; 30; 30; 31; 32; 32; 33; 33; 34; 34; 35; 36; 36; 37; 37; 38; 38; 39; 40; 40; 41; 41; 41; 41; 41; 41; 41; 41; 41]);
   (1048576, 131072, 4000, (-10)%Z, [10; 10; 10; 10; 10; 10; 10; 10; 10; 10; 10; 10; 11; 11; 12; 13; 13; 14; 15; 16; 17; 17; 18; 19; 20; 21; 21; 22; 23; 24; 24; 25; 26; 27; 27; 28; 29; 30; 30; 31; 32; 33; 33; 34; 35; 36; 36; 37; 38; 38; 39; 40; 41; 41; 41; 41; 41; 41; 41; 41; 41]);
   (1048576, 104857, 500, (-10)%Z, [36; 36; 36; 36; 36; 36; 36; 36; 36; 36; 36; 36; 36; 36; 36; 36; 36; 36; 36; 36; 36; 37; 37; 37; 37; 38; 38; 38; 38; 39; 39; 39; 39; 40; 40; 40; 40; 41; 41; 41; 41; 42; 42; 42; 42; 43; 43; 43; 43; 44; 44; 44; 44; 45; 45; 45; 45; 46; 46; 46; 46]);
   (1048576, 104857, 1000, (-10)%Z, [29; 29; 29; 29; 29; 29; 29; 29; 29; 29; 29; 29; 29; 29; 29; 29; 29; 29; 30; 30; 30; 31; 31; 31; 32; 32; 33; 33; 34; 34; 34; 35; 35; 36; 36; 37; 37; 37; 38; 38; 39; 39; 40; 40; 40; 41; 41; 42; 42; 42; 43; 43; 44; 44; 44; 45; 45; 46; 46; 46; 46]);
   (1048576, 104857, 2000, (-10)%Z, [19; 19; 19; 19; 19; 19; 19; 19; 19; 19; 19; 19; 19; 20; 20; 20; 21; 21; 22; 23; 23; 24; 24; 25; 26; 26; 27; 28; 28; 29; 29; 30; 31; 31; 32; 33; 33; 34; 34; 35; 36; 36; 37; 37; 38; 39; 39; 40; 40; 41; 42; 42; 43; 43; 44; 44; 45; 46; 46; 46; 46]);
   (1048576, 104857, 4000, (-10)%Z, [10; 10; 10; 10; 10; 10; 10; 10; 10; 10; 10; 11; 11; 12; 12; 13; 14; 15; 15; 16; 17; 18; 19; 19; 20; 21; 22; 23; 24; 24; 25; 26; 27; 28; 28; 29; 30; 31; 31; 32; 33; 34; 34; 35; 36; 37; 37; 38; 39; 40; 40; 41; 42; 43; 43; 44; 45; 46; 46; 46; 46]);
   (1048576, 87381, 500, (-10)%Z, [39; 39; 39; 39; 39; 39; 39; 39; 39; 39; 39; 39; 39; 39; 39; 39; 39; 39; 39; 39; 40; 40; 40; 40; 40; 40; 41; 41; 41; 41; 42; 42; 42; 43; 43; 43; 43; 44; 44; 44; 44; 45; 45; 45; 46; 46; 46; 46; 47; 47; 47; 47; 48; 48; 48; 48; 49; 49; 49; 49; 50]);
   (1048576, 87381, 1000, (-10)%Z, [31; 31; 31; 31; 31; 31; 31; 31; 31; 31; 31; 31; 31; 31; 31; 31; 31; 31; 32; 32; 32; 33; 33; 33; 34; 34; 35; 35; 36; 36; 37; 37; 37; 38; 38; 39; 39; 40; 40; 41; 41; 41; 42; 42; 43; 43; 44; 44; 44; 45; 45; 46; 46; 47; 47; 47; 48; 48; 49; 49; 49]);
   (1048576, 87381, 2000, (-10)%Z, [20; 20; 20; 20; 20; 20; 20; 20; 20; 20; 20; 20; 21; 21; 21; 22; 22; 22; 23; 24; 24; 25; 25; 26; 27; 27; 28; 29; 29; 30; 31; 31; 32; 33; 33; 34; 35; 35; 36; 36; 37; 38; 38; 39; 40; 40; 41; 41; 42; 43; 43; 44; 44; 45; 46; 46; 47; 47; 48; 49; 49]);
   (1048576, 87381, 4000, (-10)%Z, [11; 11; 11; 11; 11; 11; 11; 11; 11; 11; 11; 11; 12; 12; 13; 14; 14; 15; 16; 17; 17; 18; 19; 20; 21; 22; 22; 23; 24; 25; 26; 27; 27; 28; 29; 30; 31; 31; 32; 33; 34; 35; 35; 36; 37; 38; 38; 39; 40; 41; 41; 42; 43; 44; 44; 45; 46; 47; 47; 48; 49]);
   (1048576, 74898, 500, (-10)%Z, [42; 42; 42; 42; 42; 42; 42; 42; 42; 42; 42; 42; 42; 42; 42; 42; 42; 42; 42; 42; 42; 43; 43; 43; 43; 43; 43; 44; 44; 44; 45; 45; 45; 45; 46; 46; 46; 46; 47; 47; 47; 48; 48; 48; 48; 49; 49; 49; 50; 50; 50; 50; 51; 51; 51; 51; 52; 52; 52; 53; 53]);
   (1048576, 74898, 1000, (-10)%Z, [33; 33; 33; 33; 33; 33; 33; 33; 33; 33; 33; 33; 33; 33; 33; 33; 33; 34; 34; 34; 34; 35; 35; 35; 36; 36; 37; 37; 37; 38; 38; 39; 39; 40; 40; 41; 41; 42; 42; 43; 43; 44; 44; 44; 45; 45; 46; 46; 47; 47; 48; 48; 48; 49; 49; 50; 50; 51; 51; 51; 52]);
   (1048576, 74898, 2000, (-10)%Z, [22; 22; 22; 22; 22; 22; 22; 22; 22; 22; 22; 22; 22; 22; 22; 23; 23; 23; 24; 25; 25; 26; 26; 27; 28; 28; 29; 30; 30; 31; 32; 32; 33; 34; 34; 35; 36; 36; 37; 38; 38; 39; 40; 40; 41; 42; 42; 43; 43; 44; 45; 45; 46; 47; 47; 48; 48; 49; 50; 50; 51]);
   (1048576, 74898, 4000, (-10)%Z, [11; 11; 11; 11; 11; 11; 11; 11; 11; 11; 11; 11; 12; 13; 13; 14; 15; 15; 16; 17; 18; 19; 19; 20; 21; 22; 23; 24; 24; 25; 26; 27; 28; 29; 29; 30; 31; 32; 33; 34; 34; 35; 36; 37; 38; 38; 39; 40; 41; 42; 42; 43; 44; 45; 45; 46; 47; 48; 48; 49; 50]);
   (256, 32, 200, (-10)%Z, [32; 32; 32; 32; 32; 32; 32; 32; 32; 32; 32; 32; 32; 32; 32; 32; 32; 32; 32; 32; 32; 32; 32; 32; 32; 32; 32; 33; 33; 33; 33; 33; 33; 33; 33; 33; 34; 34; 34; 34; 34; 34; 34; 34; 34; 35; 35; 35; 35; 35; 35; 35; 35; 35; 35; 35; 35; 35; 35; 35; 35]);
   (256, 32, 100, (-10)%Z, [33; 33; 33; 33; 33; 33; 33; 33; 33; 33; 33; 33; 33; 33; 33; 33; 33; 33; 33; 33; 33; 33; 34; 34; 34; 34; 34; 34; 34; 34; 34; 34; 34; 34; 34; 34; 34; 34; 34; 34; 34; 34; 34; 35; 35; 35; 35; 35; 35; 35; 35; 35; 35; 35; 35; 35; 35; 35; 35; 35; 35]);
   (256, 32, 50, (-10)%Z, [34; 34; 34; 34; 34; 34; 34; 34; 34; 34; 34; 34; 34; 34; 34; 34; 34; 34; 34; 34; 34; 34; 34; 34; 34; 34; 34; 34; 34; 34; 34; 34; 34; 34; 34; 34; 35; 35; 35; 35; 35; 35; 35; 35; 35; 35; 35; 35; 35; 35; 35; 35; 35; 35; 35; 35; 35; 35; 35; 35; 35]);
   (256, 25, 200, (-10)%Z, [36; 36; 36; 36; 36; 36; 36; 36; 36; 36; 36; 36; 36; 36; 36; 36; 36; 36; 36; 36; 36; 36; 36; 36; 36; 36; 36; 36; 36; 36; 36; 37; 37; 37; 37; 37; 37; 37; 37; 37; 38; 38; 38; 38; 38; 38; 38; 38; 39; 39; 39; 39; 39; 39; 39; 39; 39; 39; 39; 39; 39]);
   (256, 25, 100, (-10)%Z, [37; 37; 37; 37; 37; 37; 37; 37; 37; 37; 37; 37; 37; 37; 37; 37; 37; 37; 37; 37; 37; 37; 37; 37; 37; 37; 38; 38; 38; 38; 38; 38; 38; 38; 38; 38; 38; 38; 38; 38; 38; 38; 38; 38; 38; 38; 39; 39; 39; 39; 39; 39; 39; 39; 39; 39; 39; 39; 39; 39; 39]);
   (256, 25, 50, (-10)%Z, [38; 38; 38; 38; 38; 38; 38; 38; 38; 38; 38; 38; 38; 38; 38; 38; 38; 38; 38; 38; 38; 38; 38; 38; 38; 38; 38; 38; 38; 38; 38; 38; 38; 38; 38; 38; 39; 39; 39; 39; 39; 39; 39; 39; 39; 39; 39; 39; 39; 39; 39; 39; 39; 39; 39; 39; 39; 39; 39; 39; 39]);
   (256, 21, 200, (-10)%Z, [39; 39; 39; 39; 39; 39; 39; 39; 39; 39; 39; 39; 39; 39; 39; 39; 39; 39; 39; 39; 39; 39; 39; 39; 39; 39; 39; 39; 40; 40; 40; 40; 40; 40; 40; 40; 40; 41; 41; 41; 41; 41; 41; 41; 41; 42; 42; 42; 42; 42; 42; 42; 42; 43; 43; 43; 43; 43; 43; 43; 43]);
   (256, 21, 100, (-10)%Z, [41; 41; 41; 41; 41; 41; 41; 41; 41; 41; 41; 41; 41; 41; 41; 41; 41; 41; 41; 41; 41; 41; 41; 41; 41; 41; 41; 41; 41; 41; 41; 41; 41; 41; 41; 42; 42; 42; 42; 42; 42; 42; 42; 42; 42; 42; 42; 42; 42; 42; 42; 42; 43; 43; 43; 43; 43; 43; 43; 43; 43]);
   (256, 21, 50, (-10)%Z, [42; 42; 42; 42; 42; 42; 42; 42; 42; 42; 42; 42; 42; 42; 42; 42; 42; 42; 42; 42; 42; 42; 42; 42; 42; 42; 42; 42; 42; 42; 42; 42; 42; 42; 42; 42; 42; 42; 42; 42; 42; 42; 42; 42; 42; 42; 43; 43; 43; 43; 43; 43; 43; 43; 43; 43; 43; 43; 43; 43; 43]);
   (256, 18, 200, (-10)%Z, [42; 42; 42; 42; 42; 42; 42; 42; 42; 42; 42; 42; 42; 42; 42; 42; 42; 42; 42; 42; 42; 42; 42; 42; 42; 42; 43; 43; 43; 43; 43; 43; 43; 43; 43; 43; 44; 44; 44; 44; 44; 44; 44; 44; 45; 45; 45; 45; 45; 45; 45; 45; 46; 46; 46; 46; 46; 46; 46; 46; 47]);
   (256, 18, 100, (-10)%Z, [44; 44; 44; 44; 44; 44; 44; 44; 44; 44; 44; 44; 44; 44; 44; 44; 44; 44; 44; 44; 44; 44; 44; 44; 45; 45; 45; 45; 45; 45; 45; 45; 45; 45; 45; 45; 45; 45; 45; 45; 45; 45; 45; 45; 45; 46; 46; 46; 46; 46; 46; 46; 46; 46; 46; 46; 46; 46; 46; 46; 46]);
   (256, 18, 50, (-10)%Z, [46; 46; 46; 46; 46; 46; 46; 46; 46; 46; 46; 46; 46; 46; 46; 46; 46; 46; 46; 46; 46; 46; 46; 46; 46; 46; 46; 46; 46; 46; 46; 46; 46; 46; 46; 46; 46; 46; 46; 46; 46; 46; 46; 46; 46; 46; 46; 46; 46; 46; 46; 46; 46; 46; 46; 46; 46; 46; 46; 46; 46]);
   (4096, 512, 200, (-10)%Z, [34; 34; 34; 34; 34; 34; 34; 34; 34; 34; 34; 34; 34; 34; 34; 34; 34; 34; 34; 34; 34; 34; 35; 35; 35; 35; 35; 35; 35; 35; 35; 35; 36; 36; 36; 36; 36; 36; 36; 36; 36; 37; 37; 37; 37; 37; 37; 37; 37; 37; 37; 38; 38; 38; 38; 38; 38; 38; 38; 38; 38]);
   (4096, 512, 100, (-10)%Z, [36; 36; 36; 36; 36; 36; 36; 36; 36; 36; 36; 36; 36; 36; 36; 36; 36; 36; 36; 36; 36; 36; 36; 36; 36; 36; 36; 36; 36; 36; 36; 36; 36; 37; 37; 37; 37; 37; 37; 37; 37; 37; 37; 37; 37; 37; 37; 37; 37; 37; 37; 38; 38; 38; 38; 38; 38; 38; 38; 38; 38]);
   (4096, 512, 50, (-10)%Z, [37; 37; 37; 37; 37; 37; 37; 37; 37; 37; 37; 37; 37; 37; 37; 37; 37; 37; 37; 37; 37; 37; 37; 37; 37; 37; 37; 37; 37; 37; 37; 37; 37; 37; 37; 37; 37; 37; 37; 37; 37; 37; 37; 37; 37; 37; 37; 37; 37; 37; 37; 38; 38; 38; 38; 38; 38; 38; 38; 38; 38]);
   (4096, 409, 200, (-10)%Z, [38; 38; 38; 38; 38; 38; 38; 38; 38; 38; 38; 38; 38; 38; 38; 38; 38; 38; 38; 38; 38; 38; 38; 38; 39; 39; 39; 39; 39; 39; 39; 39; 39; 39; 40; 40; 40; 40; 40; 40; 40; 40; 41; 41; 41; 41; 41; 41; 41; 41; 42; 42; 42; 42; 42; 42; 42; 42; 42; 42; 42]);
   (4096, 409, 100, (-10)%Z, [40; 40; 40; 40; 40; 40; 40; 40; 40; 40; 40; 40; 40; 40; 40; 40; 40; 40; 40; 40; 40; 40; 40; 40; 40; 40; 40; 40; 40; 41; 41; 41; 41; 41; 41; 41; 41; 41; 41; 41; 41; 41; 41; 41; 41; 41; 41; 42; 42; 42; 42; 42; 42; 42; 42; 42; 42; 42; 42; 42; 42]);
   (4096, 409, 50, (-10)%Z, [41; 41; 41; 41; 41; 41; 41; 41; 41; 41; 41; 41; 41; 41; 41; 41; 41; 41; 41; 41; 41; 41; 41; 41; 41; 41; 41; 41; 41; 41; 41; 41; 41; 41; 41; 42; 42; 42; 42; 42; 42; 42; 42; 42; 42; 42; 42; 42; 42; 42; 42; 42; 42; 42; 42; 42; 42; 42; 42; 42; 42]);
   (4096, 341, 200, (-10)%Z, [42; 42; 42; 42; 42; 42; 42; 42; 42; 42; 42; 42; 42; 42; 42; 42; 42; 42; 42; 42; 42; 42; 42; 42; 42; 42; 42; 42; 43; 43; 43; 43; 43; 43; 43; 43; 43; 44; 44; 44; 44; 44; 44; 44; 44; 45; 45; 45; 45; 45; 45; 45; 45; 46; 46; 46; 46; 46; 46; 46; 46]);
   (4096, 341, 100, (-10)%Z, [44; 44; 44; 44; 44; 44; 44; 44; 44; 44; 44; 44; 44; 44; 44; 44; 44; 44; 44; 44; 44; 44; 44; 44; 44; 44; 44; 44; 44; 44; 45; 45; 45; 45; 45; 45; 45; 45; 45; 45; 45; 45; 45; 45; 45; 45; 45; 46; 46; 46; 46; 46; 46; 46; 46; 46; 46; 46; 46; 46; 46]);
   (4096, 341, 50, (-10)%Z, [45; 45; 45; 45; 45; 45; 45; 45; 45; 45; 45; 45; 45; 45; 45; 45; 45; 45; 45; 45; 45; 45; 45; 45; 45; 45; 45; 45; 45; 46; 46; 46; 46; 46; 46; 46; 46; 46; 46; 46; 46; 46; 46; 46; 46; 46; 46; 46; 46; 46; 46; 46; 46; 46; 46; 46; 46; 46; 46; 46; 46]);
   (4096, 292, 200, (-10)%Z, [45; 45; 45; 45; 45; 45; 45; 45; 45; 45; 45; 45; 45; 45; 45; 45; 45; 45; 45; 45; 45; 45; 46; 46; 46; 46; 46; 46; 46; 46; 46; 46; 46; 46; 47; 47; 47; 47; 47; 47; 47; 47; 48; 48; 48; 48; 48; 48; 48; 49; 49; 49; 49; 49; 49; 49; 49; 50; 50; 50; 50]);
   (4096, 292, 100, (-10)%Z, [48; 48; 48; 48; 48; 48; 48; 48; 48; 48; 48; 48; 48; 48; 48; 48; 48; 48; 48; 48; 48; 48; 48; 48; 48; 48; 48; 48; 48; 48; 48; 48; 48; 48; 48; 49; 49; 49; 49; 49; 49; 49; 49; 49; 49; 49; 49; 49; 49; 49; 49; 50; 50; 50; 50; 50; 50; 50; 50; 50; 50]);
   (4096, 292, 50, (-10)%Z, [49; 49; 49; 49; 49; 49; 49; 49; 49; 49; 49; 49; 49; 49; 49; 49; 49; 49; 49; 49; 49; 49; 49; 49; 49; 49; 49; 49; 49; 49; 49; 49; 49; 50; 50; 50; 50; 50; 50; 50; 50; 50; 50; 50; 50; 50; 50; 50; 50; 50; 50; 50; 50; 50; 50; 50; 50; 50; 50; 50; 50]);
   (65536, 8192, 200, (-10)%Z, [36; 36; 36; 36; 36; 36; 36; 36; 36; 36; 36; 36; 36; 36; 36; 36; 36; 36; 36; 36; 36; 36; 36; 36; 36; 36; 36; 37; 37; 37; 37; 37; 37; 37; 37; 37; 38; 38; 38; 38; 38; 38; 38; 38; 38; 39; 39; 39; 39; 39; 39; 39; 39; 39; 39; 39; 39; 39; 40; 40; 40]);
   (65536, 8192, 100, (-10)%Z, [38; 38; 38; 38; 38; 38; 38; 38; 38; 38; 38; 38; 38; 38; 38; 38; 38; 38; 38; 38; 38; 38; 38; 38; 38; 38; 38; 38; 38; 38; 38; 38; 38; 38; 38; 38; 38; 38; 38; 39; 39; 39; 39; 39; 39; 39; 39; 39; 39; 39; 39; 39; 39; 39; 39; 39; 39; 39; 39; 39; 39]);
   (65536, 8192, 50, (-10)%Z, [39; 39; 39; 39; 39; 39; 39; 39; 39; 39; 39; 39; 39; 39; 39; 39; 39; 39; 39; 39; 39; 39; 39; 39; 39; 39; 39; 39; 39; 39; 39; 39; 39; 39; 39; 39; 39; 39; 39; 39; 39; 39; 39; 39; 39; 39; 39; 39; 39; 39; 39; 39; 39; 39; 39; 39; 39; 39; 39; 39; 39]);
   (65536, 6553, 200, (-10)%Z, [40; 40; 40; 40; 40; 40; 40; 40; 40; 40; 40; 40; 40; 40; 40; 40; 40; 40; 40; 40; 40; 40; 40; 40; 40; 40; 40; 41; 41; 41; 41; 41; 41; 41; 41; 41; 42; 42; 42; 42; 42; 42; 42; 42; 43; 43; 43; 43; 43; 43; 43; 43; 43; 44; 44; 44; 44; 44; 44; 44; 44]);
   (65536, 6553, 100, (-10)%Z, [42; 42; 42; 42; 42; 42; 42; 42; 42; 42; 42; 42; 42; 42; 42; 42; 42; 42; 42; 42; 42; 42; 42; 42; 42; 42; 42; 42; 42; 42; 42; 42; 43; 43; 43; 43; 43; 43; 43; 43; 43; 43; 43; 43; 43; 43; 43; 43; 43; 43; 44; 44; 44; 44; 44; 44; 44; 44; 44; 44; 44]);
   (65536, 6553, 50, (-10)%Z, [43; 43; 43; 43; 43; 43; 43; 43; 43; 43; 43; 43; 43; 43; 43; 43; 43; 43; 43; 43; 43; 43; 43; 43; 43; 43; 43; 43; 43; 43; 43; 43; 43; 43; 43; 43; 43; 43; 43; 43; 43; 44; 44; 44; 44; 44; 44; 44; 44; 44; 44; 44; 44; 44; 44; 44; 44; 44; 44; 44; 44]);
   (65536, 5461, 200, (-10)%Z, [44; 44; 44; 44; 44; 44; 44; 44; 44; 44; 44; 44; 44; 44; 44; 44; 44; 44; 44; 44; 44; 44; 44; 44; 44; 44; 44; 44; 44; 44; 45; 45; 45; 45; 45; 45; 45; 45; 46; 46; 46; 46; 46; 46; 46; 46; 47; 47; 47; 47; 47; 47; 47; 47; 48; 48; 48; 48; 48; 48; 48]);
   (65536, 5461, 100, (-10)%Z, [46; 46; 46; 46; 46; 46; 46; 46; 46; 46; 46; 46; 46; 46; 46; 46; 46; 46; 46; 46; 46; 46; 46; 46; 46; 46; 46; 46; 46; 46; 46; 47; 47; 47; 47; 47; 47; 47; 47; 47; 47; 47; 47; 47; 47; 47; 47; 47; 48; 48; 48; 48; 48; 48; 48; 48; 48; 48; 48; 48; 48]);
   (65536, 5461, 50, (-10)%Z, [47; 47; 47; 47; 47; 47; 47; 47; 47; 47; 47; 47; 47; 47; 47; 47; 47; 47; 47; 47; 47; 47; 47; 47; 47; 47; 47; 47; 48; 48; 48; 48; 48; 48; 48; 48; 48; 48; 48; 48; 48; 48; 48; 48; 48; 48; 48; 48; 48; 48; 48; 48; 48; 48; 48; 48; 48; 48; 48; 48; 48]);
   (65536, 4681, 200, (-10)%Z, [47; 47; 47; 47; 47; 47; 47; 47; 47; 47; 47; 47; 47; 47; 47; 47; 47; 47; 47; 47; 47; 47; 48; 48; 48; 48; 48; 48; 48; 48; 48; 48; 48; 48; 49; 49; 49; 49; 49; 49; 49; 49; 50; 50; 50; 50; 50; 50; 50; 50; 51; 51; 51; 51; 51; 51; 51; 52; 52; 52; 52]);
   (65536, 4681, 100, (-10)%Z, [50; 50; 50; 50; 50; 50; 50; 50; 50; 50; 50; 50; 50; 50; 50; 50; 50; 50; 50; 50; 50; 50; 50; 50; 50; 50; 50; 50; 50; 50; 50; 50; 50; 50; 51; 51; 51; 51; 51; 51; 51; 51; 51; 51; 51; 51; 51; 51; 51; 51; 52; 52; 52; 52; 52; 52; 52; 52; 52; 52; 52]);
   (65536, 4681, 50, (-10)%Z, [52; 52; 52; 52; 52; 52; 52; 52; 52; 52; 52; 52; 52; 52; 52; 52; 52; 52; 52; 52; 52; 52; 52; 52; 52; 52; 52; 52; 52; 52; 52; 52; 52; 52; 52; 52; 52; 52; 52; 52; 52; 52; 52; 52; 52; 52; 52; 52; 52; 52; 52; 52; 52; 52; 52; 52; 52; 52; 52; 52; 52]);
   (1048576, 131072, 200, (-10)%Z, [37; 37; 37; 37; 37; 37; 37; 37; 37; 37; 37; 37; 37; 37; 37; 37; 37; 37; 37; 38; 38; 38; 38; 38; 38; 38; 38; 38; 38; 38; 38; 39; 39; 39; 39; 39; 39; 39; 39; 39; 40; 40; 40; 40; 40; 40; 40; 40; 40; 40; 41; 41; 41; 41; 41; 41; 41; 41; 41; 41; 41]);
   (1048576, 131072, 100, (-10)%Z, [39; 39; 39; 39; 39; 39; 39; 39; 39; 39; 39; 39; 39; 39; 39; 39; 39; 39; 39; 39; 39; 39; 39; 39; 39; 39; 39; 40; 40; 40; 40; 40; 40; 40; 40; 40; 40; 40; 40; 40; 40; 40; 40; 40; 40; 40; 40; 41; 41; 41; 41; 41; 41; 41; 41; 41; 41; 41; 41; 41; 41]);
   (1048576, 131072, 50, (-10)%Z, [40; 40; 40; 40; 40; 40; 40; 40; 40; 40; 40; 40; 40; 40; 40; 40; 40; 40; 40; 40; 40; 40; 40; 40; 40; 40; 40; 40; 40; 40; 40; 40; 40; 40; 40; 40; 41; 41; 41; 41; 41; 41; 41; 41; 41; 41; 41; 41; 41; 41; 41; 41; 41; 41; 41; 41; 41; 41; 41; 41; 41]);
   (1048576, 104857, 200, (-10)%Z, [42; 42; 42; 42; 42; 42; 42; 42; 42; 42; 42; 42; 42; 42; 42; 42; 42; 42; 42; 42; 42; 42; 42; 42; 42; 42; 42; 42; 42; 42; 43; 43; 43; 43; 43; 43; 43; 43; 43; 44; 44; 44; 44; 44; 44; 44; 44; 44; 45; 45; 45; 45; 45; 45; 45; 45; 45; 46; 46; 46; 46]);
   (1048576, 104857, 100, (-10)%Z, [44; 44; 44; 44; 44; 44; 44; 44; 44; 44; 44; 44; 44; 44; 44; 44; 44; 44; 44; 44; 44; 44; 44; 44; 44; 44; 44; 44; 44; 44; 44; 44; 44; 44; 44; 44; 44; 44; 45; 45; 45; 45; 45; 45; 45; 45; 45; 45; 45; 45; 45; 45; 45; 45; 45; 46; 46; 46; 46; 46; 46]);
   (1048576, 104857, 50, (-10)%Z, [45; 45; 45; 45; 45; 45; 45; 45; 45; 45; 45; 45; 45; 45; 45; 45; 45; 45; 45; 45; 45; 45; 45; 45; 45; 45; 45; 45; 45; 45; 45; 45; 45; 45; 45; 45; 45; 45; 45; 45; 45; 45; 45; 45; 45; 45; 45; 45; 45; 45; 46; 46; 46; 46; 46; 46; 46; 46; 46; 46; 46]);
   (1048576, 87381, 200, (-10)%Z, [46; 46; 46; 46; 46; 46; 46; 46; 46; 46; 46; 46; 46; 46; 46; 46; 46; 46; 46; 46; 46; 46; 46; 46; 46; 46; 46; 46; 46; 46; 46; 46; 47; 47; 47; 47; 47; 47; 47; 47; 48; 48; 48; 48; 48; 48; 48; 48; 48; 49; 49; 49; 49; 49; 49; 49; 49; 50; 50; 50; 50]);
   (1048576, 87381, 100, (-10)%Z, [48; 48; 48; 48; 48; 48; 48; 48; 48; 48; 48; 48; 48; 48; 48; 48; 48; 48; 48; 48; 48; 48; 48; 48; 48; 48; 48; 48; 48; 48; 48; 48; 48; 48; 48; 49; 49; 49; 49; 49; 49; 49; 49; 49; 49; 49; 49; 49; 49; 49; 49; 49; 50; 50; 50; 50; 50; 50; 50; 50; 50]);
   (1048576, 87381, 50, (-10)%Z, [49; 49; 49; 49; 49; 49; 49; 49; 49; 49; 49; 49; 49; 49; 49; 49; 49; 49; 49; 49; 49; 49; 49; 49; 49; 49; 49; 49; 49; 49; 49; 49; 49; 49; 49; 49; 50; 50; 50; 50; 50; 50; 50; 50; 50; 50; 50; 50; 50; 50; 50; 50; 50; 50; 50; 50; 50; 50; 50; 50; 50]);
   (1048576, 74898, 200, (-10)%Z, [49; 49; 49; 49; 49; 49; 49; 49; 49; 49; 49; 49; 49; 49; 49; 49; 49; 49; 49; 49; 49; 49; 49; 49; 49; 50; 50; 50; 50; 50; 50; 50; 50; 50; 50; 51; 51; 51; 51; 51; 51; 51; 51; 52; 52; 52; 52; 52; 52; 52; 52; 53; 53; 53; 53; 53; 53; 53; 53; 54; 54]);
   (1048576, 74898, 100, (-10)%Z, [52; 52; 52; 52; 52; 52; 52; 52; 52; 52; 52; 52; 52; 52; 52; 52; 52; 52; 52; 52; 52; 52; 52; 52; 52; 52; 52; 52; 52; 52; 52; 52; 52; 52; 52; 53; 53; 53; 53; 53; 53; 53; 53; 53; 53; 53; 53; 53; 53; 53; 53; 53; 54; 54; 54; 54; 54; 54; 54; 54; 54]);
   (1048576, 74898, 50, (-10)%Z, [53; 53; 53; 53; 53; 53; 53; 53; 53; 53; 53; 53; 53; 53; 53; 53; 53; 53; 53; 53; 53; 53; 53; 53; 53; 53; 54; 54; 54; 54; 54; 54; 54; 54; 54; 54; 54; 54; 54; 54; 54; 54; 54; 54; 54; 54; 54; 54; 54; 54; 54; 54; 54; 54; 54; 54; 54; 54; 54; 54; 54]);
   (65536, 5461, 5, (-10)%Z, [49; 49; 49; 49; 49; 49; 49; 49; 49; 49; 49; 49; 49; 49; 49; 49; 49; 49; 49; 49; 49; 49; 49; 49; 49; 49; 49; 49; 49; 49; 49; 49; 49; 49; 49; 49; 49; 49; 49; 49; 49; 49; 49; 49; 49; 49; 49; 49; 49; 49; 49; 49; 49; 49; 49; 49; 49; 49; 49; 49; 49]);
   (1048576, 87381, 5, (-10)%Z, [51; 51; 51; 51; 51; 51; 51; 51; 51; 51; 51; 51; 51; 51; 51; 51; 51; 51; 51; 51; 51; 51; 51; 51; 51; 51; 51; 51; 51; 51; 51; 51; 51; 51; 51; 51; 51; 51; 51; 51; 51; 51; 51; 51; 51; 51; 51; 51; 51; 51; 51; 51; 51; 51; 51; 51; 51; 51; 51; 51; 51]);
   (65536, 5461, 10, (-10)%Z, [48; 48; 48; 48; 48; 48; 48; 48; 48; 48; 48; 48; 48; 48; 48; 48; 48; 48; 48; 48; 48; 48; 48; 48; 48; 48; 48; 48; 48; 48; 48; 48; 48; 48; 48; 48; 48; 48; 48; 48; 48; 49; 49; 49; 49; 49; 49; 49; 49; 49; 49; 49; 49; 49; 49; 49; 49; 49; 49; 49; 49]);
   (1048576, 87381, 10, (-10)%Z, [50; 50; 50; 50; 50; 50; 50; 50; 50; 50; 50; 50; 50; 50; 50; 50; 50; 50; 50; 50; 50; 50; 50; 50; 50; 50; 50; 50; 50; 50; 50; 50; 50; 50; 50; 50; 50; 50; 50; 50; 50; 50; 50; 50; 50; 50; 50; 50; 50; 50; 50; 50; 50; 50; 50; 50; 50; 50; 50; 50; 50])].
(** Grr18Common.cpp:252-283: the last table for [n] items, [m] bins and a privacy parameter of [eps] thousandths. *)
Definition tableOf (n m eps : N) : option (Z * list N) :=
  foldl (fun o (t : N * N * N * Z * list N) =>
           let '(tn, tm, te, st, l) := t in if (te =? eps) && (tn =? n) && (tm =? m) then Some (st, l) else o) None tables.
(** Grr18Common.cpp:127-292: the mode with tables; [maxLoad] is [get_bin_size(mM, mN, 40)], [cap] is [bins.mMaxBinSize]. Without a table, [non]. *)
Definition tableCfg (n m eps maxLoad cap : N) : loadCfg :=
  match tableOf n m eps with Some (st, l) => mkLoadCfg false (-1) false maxLoad cap st l | None => noTableCfg maxLoad cap end.
