(** GENERATED by scripts/gen_data.py from auxi/tools/chemistry/data/nist/*.json:
    the thermochemical database loaded by thermochemistry.py:742-761 and 885.
    Decimal literals are kept exactly (the program rounds them to binary64). *)
From Verif Require Import Prelude M_Data.
Local Open Scope Q_scope.

Definition nist_data : list qcompound :=
  [
   (** data/nist/Compound_Al.json *)
   mkqc "Al" (26981538 # 1000000000) [
      ("G"%string, mkqp (3296992 # 1) (1894808 # 10000) [((6000 # 1), mkqr (2790812 # 1000) (6000 # 1) [((2037692 # 100000), 0); ((660817 # 1000000000), (1 # 1)); ((- 313631 # 1000000000000), (2 # 1)); ((45106 # 1000000000000000), (3 # 1)); ((78173 # 1), (- 2 # 1))])]);
      ("L"%string, mkqp (1056201 # 10) (7339949 # 100000) [((2790812 # 1000), mkqr (93345 # 100) (2790812 # 1000) [((3175104 # 100000), 0); ((3935826 # 100000000000000000), (1 # 1)); ((- 1786515 # 100000000000000000000), (2 # 1)); ((2694171 # 1000000000000000000000000), (3 # 1)); ((5480037 # 1000000000), (- 2 # 1))])]);
      ("S"%string, mkqp 0 (6190981 # 100000) [((933 # 1), mkqr (298 # 1) (933 # 1) [((280892 # 10000), 0); ((- 5414849 # 1000000000), (1 # 1)); ((8560423 # 1000000000000), (2 # 1)); ((342737 # 100000000000000), (3 # 1)); ((- 277375 # 1), (- 2 # 1))])])];
   (** data/nist/Compound_Al2O3.json *)
   mkqc "Al2O3" (101961276 # 1000000000) [
      ("L"%string, mkqp (- 16205680 # 1) (1771008 # 10000) [((4000 # 1), mkqr (2327 # 1) (4000 # 1) [((192464 # 1000), 0); ((9519856 # 100000000000000000), (1 # 1)); ((- 2858928 # 100000000000000000000), (2 # 1)); ((2929147 # 1000000000000000000000000), (3 # 1)); ((5599405 # 100000000), (- 2 # 1))])]);
      ("S (alpha)"%string, mkqp (- 16756900 # 1) (146997 # 1000) [((2327 # 1), mkqr (298 # 1) (2327 # 1) [((102429 # 1000), 0); ((387498 # 10000000), (1 # 1)); ((- 159109 # 10000000000), (2 # 1)); ((2628181 # 1000000000000000), (3 # 1)); ((- 3007551 # 1), (- 2 # 1))])]);
      ("S (delta)"%string, mkqp (- 16664900 # 1) (151792 # 1000) [((2327 # 1), mkqr (298 # 1) (2327 # 1) [((106918 # 1000), 0); ((366219 # 10000000), (1 # 1)); ((- 139759 # 10000000000), (2 # 1)); ((215799 # 100000000000000), (3 # 1)); ((- 3157761 # 1), (- 2 # 1))])]);
      ("S (gamma)"%string, mkqp (- 16568600 # 1) (155136 # 1000) [((2327 # 1), mkqr (298 # 1) (2327 # 1) [((108683 # 1000), 0); ((372263 # 10000000), (1 # 1)); ((- 142065 # 10000000000), (2 # 1)); ((2193601 # 1000000000000000), (3 # 1)); ((- 3209881 # 1), (- 2 # 1))])]);
      ("S (kappa)"%string, mkqp (- 16623000 # 1) (153935 # 1000) [((2327 # 1), mkqr (298 # 1) (2327 # 1) [((106088 # 1000), 0); ((363374 # 10000000), (1 # 1)); ((- 138673 # 10000000000), (2 # 1)); ((2141221 # 1000000000000000), (3 # 1)); ((- 3133231 # 1), (- 2 # 1))])])];
   (** data/nist/Compound_Ar.json *)
   mkqc "Ar" (39948 # 1000000) [
      ("G"%string, mkqp 0 (179999 # 1000) [((6000 # 1), mkqr (298 # 1) (6000 # 1) [((20786 # 1000), 0); ((2825911 # 10000000000000000), (1 # 1)); ((- 1464191 # 10000000000000000000), (2 # 1)); ((1092131 # 100000000000000000000000), (3 # 1)); ((- 3661371 # 100000000), (- 2 # 1))])])];
   (** data/nist/Compound_CO.json *)
   mkqc "CO" (28010100000000003 # 1000000000000000000) [
      ("G1"%string, mkqp (- 1105271 # 1) (2273665 # 10000) [((1300 # 1), mkqr (298 # 1) (1300 # 1) [((2556759 # 100000), 0); ((609613 # 100000000), (1 # 1)); ((4054656 # 1000000000000), (2 # 1)); ((- 2671301 # 1000000000000000), (3 # 1)); ((131021 # 1), (- 2 # 1))])]);
      ("G2"%string, mkqp (- 1105271 # 1) (231712 # 1000) [((6000 # 1), mkqr (1300 # 1) (6000 # 1) [((351507 # 10000), 0); ((1300095 # 1000000000), (1 # 1)); ((- 205921 # 1000000000000), (2 # 1)); ((1355 # 100000000000000), (3 # 1)); ((- 3282780 # 1), (- 2 # 1))])])];
   (** data/nist/Compound_CO2.json *)
   mkqc "CO2" (440095 # 10000000) [
      ("G1"%string, mkqp (- 3935224 # 1) (2282431 # 10000) [((1200 # 1), mkqr (298 # 1) (1200 # 1) [((2499735 # 100000), 0); ((5518696 # 100000000), (1 # 1)); ((- 3369137 # 100000000000), (2 # 1)); ((7948387 # 1000000000000000), (3 # 1)); ((- 136638 # 1), (- 2 # 1))])]);
      ("G2"%string, mkqp (- 3935224 # 1) (2636125 # 10000) [((6000 # 1), mkqr (1200 # 1) (6000 # 1) [((5816639 # 100000), 0); ((2720074 # 1000000000), (1 # 1)); ((- 492289 # 1000000000000), (2 # 1)); ((38844 # 1000000000000000), (3 # 1)); ((- 6447293 # 1), (- 2 # 1))])])];
   (** data/nist/Compound_CaO.json *)
   mkqc "CaO" (56077400000000006 # 1000000000000000000) [
      ("G"%string, mkqp (439320 # 1) (1724967 # 10000) [((6000 # 1), mkqr (4500 # 1) (6000 # 1) [((3580508 # 10000), 0); ((- 1179888 # 10000000), (1 # 1)); ((1667943 # 100000000000), (2 # 1)); ((- 83239 # 100000000000000), (3 # 1)); ((- 615094000 # 1), (- 2 # 1))])]);
      ("L"%string, mkqp (5573339 # 1) (1168909 # 10000) [((4500 # 1), mkqr (3200 # 1) (4500 # 1) [((6276 # 100), 0); ((4629681 # 10000000000000000), (1 # 1)); ((- 1092037 # 10000000000000000000), (2 # 1)); ((8966312 # 1000000000000000000000000), (3 # 1)); ((6504656 # 10000000), (- 2 # 1))])]);
      ("S"%string, mkqp (- 6350894 # 1) (9256096 # 100000) [((3200 # 1), mkqr (298 # 1) (3200 # 1) [((4995403 # 100000), 0); ((4887916 # 1000000000), (1 # 1)); ((- 352056 # 1000000000000), (2 # 1)); ((46187 # 1000000000000000), (3 # 1)); ((- 825097 # 1), (- 2 # 1))])])];
   (** data/nist/Compound_Fe.json *)
   mkqc "Fe" (55845 # 1000000) [
      ("G"%string, mkqp (4154716 # 1) (2063591 # 10000) [((6000 # 1), mkqr (3133345 # 1000) (6000 # 1) [((1129253 # 100000), 0); ((6989707 # 1000000000), (1 # 1)); ((- 1110305 # 1000000000000), (2 # 1)); ((122354 # 1000000000000000), (3 # 1)); ((5689278 # 1), (- 2 # 1))])]);
      ("L"%string, mkqp (1239502 # 10) (7254094 # 100000) [((3133345 # 1000), mkqr (1809 # 1) (3133345 # 1000) [((46024 # 1000), 0); ((- 1884667 # 100000000000000000), (1 # 1)); ((609475 # 100000000000000000000), (2 # 1)); ((- 6640301 # 10000000000000000000000000), (3 # 1)); ((- 8246121 # 1000000000), (- 2 # 1))])]);
      ("S (gamma)"%string, mkqp (7788015 # 100) (6206336 # 100000) [((1809 # 1), mkqr (298 # 1) (1809 # 1) [((2397449 # 100000), 0); ((836775 # 100000000), (1 # 1)); ((277 # 1000000000000), (2 # 1)); ((- 86 # 1000000000000000), (3 # 1)); ((- 5 # 1), (- 2 # 1))])]);
      ("S1 (alp - delt)"%string, mkqp 0 (4251488 # 100000) [((700 # 1), mkqr (298 # 1) (700 # 1) [((1842868 # 100000), 0); ((2464301 # 100000000), (1 # 1)); ((- 891372 # 100000000000), (2 # 1)); ((9664706 # 1000000000000000), (3 # 1)); ((- 12643 # 1), (- 2 # 1))])]);
      ("S2 (alp - delt)"%string, mkqp 0 (- 8736401 # 100) [((1042 # 1), mkqr (700 # 1) (1042 # 1) [((- 5776765 # 100), 0); ((1379197 # 10000), (1 # 1)); ((- 1227732 # 10000000), (2 # 1)); ((3868242 # 100000000000), (3 # 1)); ((3993080000 # 1), (- 2 # 1))])]);
      ("S3 (alp - delt)"%string, mkqp 0 (2418766 # 10000) [((1100 # 1), mkqr (1042 # 1) (1100 # 1) [((- 3258859 # 10000), 0); ((2892876 # 100000000), (1 # 1)); (0, (2 # 1)); (0, (3 # 1)); ((411962900 # 1), (- 2 # 1))])]);
      ("S4 (alp - delt)"%string, mkqp 0 (- 5583674 # 10000) [((1809 # 1), mkqr (1100 # 1) (1809 # 1) [((- 7767387 # 10000), 0); ((9194005 # 10000000), (1 # 1)); ((- 3837184 # 10000000000), (2 # 1)); ((5708148 # 100000000000000), (3 # 1)); ((242136900 # 1), (- 2 # 1))])])];
   (** data/nist/Compound_Fe2O3.json *)
   mkqc "Fe2O3" (1596882 # 10000000) [
      ("S1"%string, mkqp (- 8255032 # 1) (1610719 # 10000) [((950 # 1), mkqr (298 # 1) (950 # 1) [((9343834 # 100000), 0); ((1083577 # 10000000), (1 # 1)); ((- 5086447 # 100000000000), (2 # 1)); ((2558683 # 100000000000000), (3 # 1)); ((- 1611330 # 1), (- 2 # 1))])]);
      ("S2"%string, mkqp (- 8255032 # 1) (2528814 # 10000) [((1050 # 1), mkqr (950 # 1) (1050 # 1) [((150624 # 1000), 0); (0, (1 # 1)); (0, (2 # 1)); (0, (3 # 1)); (0, (- 2 # 1))])]);
      ("S3"%string, mkqp (- 8255032 # 1) (2283548 # 10000) [((2500 # 1), mkqr (1050 # 1) (2500 # 1) [((1109362 # 10000), 0); ((3204714 # 100000000), (1 # 1)); ((- 9192333 # 1000000000000), (2 # 1)); ((901506 # 1000000000000000), (3 # 1)); ((5433677 # 1), (- 2 # 1))])])];
   (** data/nist/Compound_Fe3O4.json *)
   mkqc "Fe3O4" (2315326 # 10000000) [
      ("S1"%string, mkqp (- 11208940 # 1) (2120585 # 10000) [((900 # 1), mkqr (298 # 1) (900 # 1) [((1042096 # 10000), 0); ((1785108 # 10000000), (1 # 1)); ((106151 # 10000000000), (2 # 1)); ((1132534 # 1000000000000000), (3 # 1)); ((- 994202 # 1), (- 2 # 1))])]);
      ("S2"%string, mkqp (- 11208940 # 1) (388079 # 1000) [((3000 # 1), mkqr (900 # 1) (3000 # 1) [((200832 # 1000), 0); ((1586435 # 10000000000000000), (1 # 1)); ((- 6661682 # 100000000000000000000), (2 # 1)); ((9452452 # 1000000000000000000000000), (3 # 1)); ((318602 # 10000000), (- 2 # 1))])])];
   (** data/nist/Compound_FeO.json *)
   mkqc "FeO" (7184439999999999 # 100000000000000000) [
      ("G"%string, mkqp (2510404 # 1) (2835229 # 10000) [((6000 # 1), mkqr (5000 # 1) (6000 # 1) [((3619457 # 100000), 0); ((- 101054 # 1000000000), (1 # 1)); ((648056 # 1000000000000), (2 # 1)); ((- 70287 # 1000000000000000), (3 # 1)); ((238204 # 1), (- 2 # 1))])]);
      ("L"%string, mkqp (- 2495321 # 1) (1378377 # 10000) [((1650 # 1), mkqr (298 # 1) (1650 # 1) [((681992 # 10000), 0); ((- 4501232 # 10000000000000000000), (1 # 1)); ((1195227 # 10000000000000000000000), (2 # 1)); ((- 1064302 # 100000000000000000000000000), (3 # 1)); ((- 309268 # 1000000000), (- 2 # 1))])]);
      ("S"%string, mkqp (- 2720441 # 1) (110312 # 1000) [((5000 # 1), mkqr (1650 # 1) (5000 # 1) [((457512 # 10000), 0); ((1878553 # 100000000), (1 # 1)); ((- 5952201 # 1000000000000), (2 # 1)); ((852779 # 1000000000000000), (3 # 1)); ((- 81265 # 1), (- 2 # 1))])])];
   (** data/nist/Compound_H2.json *)
   mkqc "H2" (20158800000000003 # 10000000000000000000) [
      ("G1"%string, mkqp 0 (172707974 # 1000000) [((1000 # 1), mkqr (298 # 1) (1000 # 1) [((33066178 # 1000000), 0); ((- 11363417 # 1000000000), (1 # 1)); ((11432816 # 1000000000000), (2 # 1)); ((- 2772874 # 1000000000000000), (3 # 1)); ((- 158558 # 1), (- 2 # 1))])]);
      ("G2"%string, mkqp 0 (156288133 # 1000000) [((2500 # 1), mkqr (1000 # 1) (2500 # 1) [((18563083 # 1000000), 0); ((12257357 # 1000000000), (1 # 1)); ((- 2859786 # 1000000000000), (2 # 1)); ((268238 # 1000000000000000), (3 # 1)); ((1977990 # 1), (- 2 # 1))])]);
      ("G3"%string, mkqp 0 (162081354 # 1000000) [((6000 # 1), mkqr (2500 # 1) (6000 # 1) [((4341356 # 100000), 0); ((- 4293079 # 1000000000), (1 # 1)); ((1272428 # 1000000000000), (2 # 1)); ((- 96876 # 1000000000000000), (3 # 1)); ((- 20533862 # 1), (- 2 # 1))])])];
   (** data/nist/Compound_H2O.json *)
   mkqc "H2O" (1801528 # 100000000) [
      ("G1"%string, mkqp (- 2418264 # 1) (2233967 # 10000) [((1700 # 1), mkqr (500 # 1) (1700 # 1) [((30092 # 1000), 0); ((6832514 # 1000000000), (1 # 1)); ((6793435 # 1000000000000), (2 # 1)); ((- 253448 # 100000000000000), (3 # 1)); ((82139 # 1), (- 2 # 1))])]);
      ("G2"%string, mkqp (- 2418264 # 1) (2197809 # 10000) [((6000 # 1), mkqr (1700 # 1) (6000 # 1) [((4196426 # 100000), 0); ((8622053 # 1000000000), (1 # 1)); ((- 149978 # 100000000000), (2 # 1)); ((98119 # 1000000000000000), (3 # 1)); ((- 11157640 # 1), (- 2 # 1))])]);
      ("L"%string, mkqp (- 2858304 # 1) (- 4887163 # 10000) [((500 # 1), mkqr (298 # 1) (500 # 1) [((- 203606 # 1000), 0); ((152329 # 100000), (1 # 1)); ((- 3196413 # 1000000000), (2 # 1)); ((2474455 # 1000000000000), (3 # 1)); ((3855326 # 1), (- 2 # 1))])])];
   (** data/nist/Compound_MgO.json *)
   mkqc "MgO" (40304400000000004 # 1000000000000000000) [
      ("G"%string, mkqp (581576 # 1) (27699 # 100) [((6000 # 1), mkqr (5000 # 1) (6000 # 1) [((331953 # 10000), 0); ((1944521 # 1000000000), (1 # 1)); ((- 206813 # 1000000000000), (2 # 1)); ((20861 # 1000000000000000), (3 # 1)); ((33867400 # 1), (- 2 # 1))])]);
      ("L"%string, mkqp (- 5326106 # 1) (9374712 # 100000) [((5000 # 1), mkqr (3105 # 1) (5000 # 1) [((66944 # 1000), 0); (0, (1 # 1)); (0, (2 # 1)); (0, (3 # 1)); (0, (- 2 # 1))])]);
      ("S"%string, mkqp (- 6012408 # 1) (7646176 # 100000) [((3105 # 1), mkqr (298 # 1) (3105 # 1) [((4725995 # 100000), 0); ((5681621 # 1000000000), (1 # 1)); ((- 872665 # 1000000000000), (2 # 1)); ((1043 # 10000000000000), (3 # 1)); ((- 1053955 # 1), (- 2 # 1))])])];
   (** data/nist/Compound_N2.json *)
   mkqc "N2" (2801348 # 100000000) [
      ("G1"%string, mkqp 0 (2264168 # 10000) [((500 # 1), mkqr (100 # 1) (500 # 1) [((2898641 # 100000), 0); ((1853978 # 1000000000), (1 # 1)); ((- 9647459 # 1000000000000), (2 # 1)); ((1663537 # 100000000000000), (3 # 1)); ((117 # 1), (- 2 # 1))])]);
      ("G2"%string, mkqp 0 (21239 # 100) [((2000 # 1), mkqr (500 # 1) (2000 # 1) [((1950583 # 100000), 0); ((1988705 # 100000000), (1 # 1)); ((- 8598535 # 1000000000000), (2 # 1)); ((1369784 # 1000000000000000), (3 # 1)); ((527601 # 1), (- 2 # 1))])]);
      ("G3"%string, mkqp 0 (224981 # 1000) [((6000 # 1), mkqr (2000 # 1) (6000 # 1) [((3551872 # 100000), 0); ((1128728 # 1000000000), (1 # 1)); ((- 196103 # 1000000000000), (2 # 1)); ((14662 # 1000000000000000), (3 # 1)); ((- 4553760 # 1), (- 2 # 1))])])];
   (** data/nist/Compound_O2.json *)
   mkqc "O2" (319988 # 10000000) [
      ("G1"%string, mkqp 0 (2467945 # 10000) [((700 # 1), mkqr (100 # 1) (700 # 1) [((3132234 # 100000), 0); ((- 2023531 # 100000000), (1 # 1)); ((5786644 # 100000000000), (2 # 1)); ((- 3650624 # 100000000000000), (3 # 1)); ((- 7374 # 1), (- 2 # 1))])]);
      ("G2"%string, mkqp 0 (2361663 # 10000) [((2000 # 1), mkqr (700 # 1) (2000 # 1) [((3003235 # 100000), 0); ((8772972 # 1000000000), (1 # 1)); ((- 3988133 # 1000000000000), (2 # 1)); ((788313 # 1000000000000000), (3 # 1)); ((- 741599 # 1), (- 2 # 1))])]);
      ("G3"%string, mkqp 0 (2376185 # 10000) [((6000 # 1), mkqr (2000 # 1) (6000 # 1) [((2091111 # 100000), 0); ((1072071 # 100000000), (1 # 1)); ((- 2020498 # 1000000000000), (2 # 1)); ((146449 # 1000000000000000), (3 # 1)); ((9245722 # 1), (- 2 # 1))])])];
   (** data/nist/Compound_Si.json *)
   mkqc "Si" (280855 # 10000000) [
      ("G"%string, mkqp (4500018 # 1) (1902494 # 10000) [((6000 # 1), mkqr (3504616 # 1000) (6000 # 1) [((1459321 # 100000), 0); ((5224644 # 1000000000), (1 # 1)); ((- 1078879 # 1000000000000), (2 # 1)); ((74 # 1000000000000), (3 # 1)); ((2309405 # 1), (- 2 # 1))])]);
      ("L"%string, mkqp (4846997 # 10) (7737178 # 100000) [((3504616 # 1000), mkqr (1685 # 1) (3504616 # 1000) [((2719604 # 100000), 0); ((- 1198306 # 10000000000000000000), (1 # 1)); ((5353262 # 100000000000000000000000), (2 # 1)); ((- 6956612 # 1000000000000000000000000000), (3 # 1)); ((- 4294375 # 1000000000000), (- 2 # 1))])]);
      ("S"%string, mkqp 0 (4327846 # 100000) [((1685 # 1), mkqr (298 # 1) (1685 # 1) [((2281719 # 100000), 0); ((389951 # 100000000), (1 # 1)); ((- 82885 # 1000000000000), (2 # 1)); ((42111 # 1000000000000000), (3 # 1)); ((- 354063 # 1), (- 2 # 1))])])];
   (** data/nist/Compound_SiO.json *)
   mkqc "SiO" (44084899999999996 # 1000000000000000000) [
      ("G1"%string, mkqp (- 1004160 # 1) (2261506 # 10000) [((1100 # 1), mkqr (298 # 1) (1100 # 1) [((1952413 # 100000), 0); ((374637 # 10000000), (1 # 1)); ((- 3051805 # 100000000000), (2 # 1)); ((909405 # 100000000000000), (3 # 1)); ((148934 # 1), (- 2 # 1))])]);
      ("G2"%string, mkqp (- 1004160 # 1) (2491911 # 10000) [((6000 # 1), mkqr (1100 # 1) (6000 # 1) [((3569893 # 100000), 0); ((1731252 # 1000000000), (1 # 1)); ((- 509348 # 1000000000000), (2 # 1)); ((59404 # 1000000000000000), (3 # 1)); ((- 1248055 # 1), (- 2 # 1))])])];
   (** data/nist/Compound_SiO2.json *)
   mkqc "SiO2" (600843 # 10000000) [
      ("S1"%string, mkqp (- 9108568 # 1) (- 2796962 # 100000) [((847 # 1), mkqr (298 # 1) (847 # 1) [((- 6076591 # 1000000), 0); ((2516755 # 10000000), (1 # 1)); ((- 3247964 # 10000000000), (2 # 1)); ((1685604 # 10000000000000), (3 # 1)); ((2548 # 1), (- 2 # 1))])]);
      ("S2"%string, mkqp (- 9108568 # 1) (1058092 # 10000) [((1996 # 1), mkqr (847 # 1) (1996 # 1) [((587534 # 10000), 0); ((1027925 # 100000000), (1 # 1)); ((- 131384 # 1000000000000), (2 # 1)); ((2521 # 100000000000000), (3 # 1)); ((25601 # 1), (- 2 # 1))])])]
  ].
