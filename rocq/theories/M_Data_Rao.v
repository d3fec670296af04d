(** GENERATED by scripts/gen_data.py from auxi/tools/chemistry/data/rao/*.json:
    the thermochemical database loaded by thermochemistry.py:742-761 and 885.
    Decimal literals are kept exactly (the program rounds them to binary64). *)
From Verif Require Import Prelude M_Data.
Local Open Scope Q_scope.

Definition rao_data : list qcompound :=
  [
   (** data/rao/Compound_Ag.json *)
   mkqc "Ag" (1078682 # 10000000) [
      ("L"%string, mkqp (8936 # 1) (47187 # 1000) [((3000 # 1), mkqr (29815 # 100) (3000 # 1) [((30543 # 1000), 0)])]);
      ("S"%string, mkqp 0 (4255 # 100) [((3000 # 1), mkqr (29815 # 100) (3000 # 1) [((21297 # 1000), 0); ((8535 # 1000000), (1 # 1)); ((150600 # 1), (- 2 # 1))])])];
   (** data/rao/Compound_AgCl.json *)
   mkqc "AgCl" (1433209 # 10000000) [
      ("L"%string, mkqp (- 117430 # 1) (106365 # 1000) [((3000 # 1), mkqr (29815 # 100) (3000 # 1) [((66944 # 1000), 0)])]);
      ("S"%string, mkqp (- 127070 # 1) (9623 # 100) [((3000 # 1), mkqr (29815 # 100) (3000 # 1) [((62258 # 1000), 0); ((4184 # 1000000), (1 # 1)); ((- 1129700 # 1), (- 2 # 1))])])];
   (** data/rao/Compound_AgI.json *)
   mkqc "AgI" (23477267000000002 # 100000000000000000) [
      ("S1"%string, mkqp (- 61923 # 1) (115478 # 1000) [((3000 # 1), mkqr (29815 # 100) (3000 # 1) [((24351 # 1000), 0); ((100834 # 1000000), (1 # 1))])])];
   (** data/rao/Compound_Al.json *)
   mkqc "Al" (26981538 # 1000000000) [
      ("G"%string, mkqp (329700 # 1) (16444 # 100) [((3000 # 1), mkqr (29815 # 100) (3000 # 1) [((20799 # 1000), 0)])]);
      ("L"%string, mkqp (8233 # 1) (34735 # 1000) [((3000 # 1), mkqr (29815 # 100) (3000 # 1) [((31798 # 1000), 0)])]);
      ("S"%string, mkqp 0 (2835 # 100) [((3000 # 1), mkqr (29815 # 100) (3000 # 1) [((20669 # 1000), 0); ((12385 # 1000000), (1 # 1))])])];
   (** data/rao/Compound_Al2O3.json *)
   mkqc "Al2O3" (101961276 # 1000000000) [
      ("S"%string, mkqp (- 1675700 # 1) (5092 # 100) [((3000 # 1), mkqr (29815 # 100) (3000 # 1) [((106608 # 1000), 0); ((17782 # 1000000), (1 # 1)); ((- 2853500 # 1), (- 2 # 1))])])];
   (** data/rao/Compound_AlSb.json *)
   mkqc "AlSb" (14874153799999998 # 100000000000000000) [
      ("S"%string, mkqp (- 50208 # 1) (64978 # 1000) [((3000 # 1), mkqr (29815 # 100) (3000 # 1) [((43514 # 1000), 0); ((9623 # 1000000), (1 # 1))])])];
   (** data/rao/Compound_As.json *)
   mkqc "As" (749216 # 10000000) [
      ("S"%string, mkqp 0 (3569 # 100) [((3000 # 1), mkqr (29815 # 100) (3000 # 1) [((23179 # 1000), 0); ((5523 # 1000000), (1 # 1))])])];
   (** data/rao/Compound_As2O3.json *)
   mkqc "As2O3" (1978414 # 10000000) [
      ("S"%string, mkqp (- 653332 # 1) (122717 # 1000) [((3000 # 1), mkqr (29815 # 100) (3000 # 1) [((59831 # 1000), 0); ((175728 # 1000000), (1 # 1))])])];
   (** data/rao/Compound_As4.json *)
   mkqc "As4" (2996864 # 10000000) [
      ("S"%string, mkqp (153302 # 1) (327314 # 1000) [((3000 # 1), mkqr (29815 # 100) (3000 # 1) [((82939 # 1000), 0); ((13 # 100000), (1 # 1)); ((- 513000 # 1), (- 2 # 1))])])];
   (** data/rao/Compound_Br2.json *)
   mkqc "Br2" (159808 # 1000000) [
      ("G"%string, mkqp (30910 # 1) (24535 # 100) [((3000 # 1), mkqr (29815 # 100) (3000 # 1) [((37363 # 1000), 0); ((46 # 100000), (1 # 1)); ((- 129700 # 1), (- 2 # 1))])])];
   (** data/rao/Compound_C.json *)
   mkqc "C" (120107 # 10000000) [
      ("Sgr"%string, mkqp 0 (574 # 100) [((3000 # 1), mkqr (29815 # 100) (3000 # 1) [((17154 # 1000), 0); ((4268 # 1000000), (1 # 1)); ((- 878600 # 1), (- 2 # 1))])])];
   (** data/rao/Compound_CH4.json *)
   mkqc "CH4" (16042459999999998 # 1000000000000000000) [
      ("G"%string, mkqp (- 74852 # 1) (186188 # 1000) [((3000 # 1), mkqr (29815 # 100) (3000 # 1) [((2364 # 100), 0); ((47865 # 1000000), (1 # 1)); ((- 192500 # 1), (- 2 # 1))])])];
   (** data/rao/Compound_CO.json *)
   mkqc "CO" (28010100000000003 # 1000000000000000000) [
      ("G"%string, mkqp (- 110530 # 1) (197556 # 1000) [((3000 # 1), mkqr (29815 # 100) (3000 # 1) [((28409 # 1000), 0); ((41 # 10000), (1 # 1)); ((- 46000 # 1), (- 2 # 1))])])];
   (** data/rao/Compound_CO2.json *)
   mkqc "CO2" (440095 # 10000000) [
      ("G"%string, mkqp (- 393510 # 1) (213677 # 1000) [((3000 # 1), mkqr (29815 # 100) (3000 # 1) [((44141 # 1000), 0); ((9037 # 1000000), (1 # 1)); ((- 853500 # 1), (- 2 # 1))])])];
   (** data/rao/Compound_COCl2.json *)
   mkqc "COCl2" (989155 # 10000000) [
      ("G"%string, mkqp (- 223007 # 1) (289114 # 1000) [((3000 # 1), mkqr (29815 # 100) (3000 # 1) [((71002 # 1000), 0); ((6862 # 1000000), (1 # 1)); ((- 1104600 # 1), (- 2 # 1))])])];
   (** data/rao/Compound_COS.json *)
   mkqc "COS" (6007610000000001 # 100000000000000000) [
      ("G"%string, mkqp (- 138407 # 1) (231459 # 1000) [((3000 # 1), mkqr (29815 # 100) (3000 # 1) [((47405 # 1000), 0); ((9121 # 1000000), (1 # 1)); ((- 765700 # 1), (- 2 # 1))])])];
   (** data/rao/Compound_Ca.json *)
   mkqc "Ca" (40078 # 1000000) [
      ("L"%string, mkqp (10904 # 1) (50647 # 1000) [((3000 # 1), mkqr (29815 # 100) (3000 # 1) [((30125 # 1000), 0)])]);
      ("S1"%string, mkqp 0 (416 # 10) [((3000 # 1), mkqr (29815 # 100) (3000 # 1) [((25507 # 1000), 0); ((2605 # 1000000), (1 # 1))])]);
      ("S2"%string, mkqp (490 # 1) (42468 # 1000) [((3000 # 1), mkqr (29815 # 100) (3000 # 1) [((16795 # 1000), 0); ((22175 # 1000000), (1 # 1))])])];
   (** data/rao/Compound_CaCO3.json *)
   mkqc "CaCO3" (1000869 # 10000000) [
      ("S"%string, mkqp (- 1207126 # 1) (88701 # 1000) [((3000 # 1), mkqr (29815 # 100) (3000 # 1) [((104516 # 1000), 0); ((21924 # 1000000), (1 # 1)); ((- 2594100 # 1), (- 2 # 1))])])];
   (** data/rao/Compound_CaO.json *)
   mkqc "CaO" (56077400000000006 # 1000000000000000000) [
      ("S"%string, mkqp (- 635090 # 1) (381 # 10) [((3000 # 1), mkqr (29815 # 100) (3000 # 1) [((49622 # 1000), 0); ((4519 # 1000000), (1 # 1)); ((- 694500 # 1), (- 2 # 1))])])];
   (** data/rao/Compound_CaS.json *)
   mkqc "CaS" (72144 # 1000000) [
      ("S"%string, mkqp (- 476139 # 1) (56484 # 1000) [((3000 # 1), mkqr (29815 # 100) (3000 # 1) [((45187 # 1000), 0); ((774 # 100000), (1 # 1))])])];
   (** data/rao/Compound_CaSiO3.json *)
   mkqc "CaSiO3" (11616169999999999 # 100000000000000000) [
      ("S"%string, mkqp (- 1634909 # 1) (82006 # 1000) [((3000 # 1), mkqr (29815 # 100) (3000 # 1) [((108156 # 1000), 0); ((16485 # 1000000), (1 # 1)); ((- 2364000 # 1), (- 2 # 1))])])];
   (** data/rao/Compound_Cd.json *)
   mkqc "Cd" (112411 # 1000000) [
      ("G"%string, mkqp (111797 # 1) (167632 # 1000) [((3000 # 1), mkqr (29815 # 100) (3000 # 1) [((20786 # 1000), 0)])]);
      ("L"%string, mkqp (5809 # 1) (61052 # 1000) [((3000 # 1), mkqr (29815 # 100) (3000 # 1) [((29706 # 1000), 0)])]);
      ("S"%string, mkqp 0 (518 # 10) [((3000 # 1), mkqr (29815 # 100) (3000 # 1) [((22217 # 1000), 0); ((123 # 10000), (1 # 1))])])];
   (** data/rao/Compound_CdO.json *)
   mkqc "CdO" (1284104 # 10000000) [
      ("S"%string, mkqp (- 259408 # 1) (548 # 10) [((3000 # 1), mkqr (29815 # 100) (3000 # 1) [((48242 # 1000), 0); ((6381 # 1000000), (1 # 1)); ((- 489500 # 1), (- 2 # 1))])])];
   (** data/rao/Compound_CdS.json *)
   mkqc "CdS" (144477 # 1000000) [
      ("S"%string, mkqp (- 149369 # 1) (69036 # 1000) [((3000 # 1), mkqr (29815 # 100) (3000 # 1) [((4456 # 100), 0); ((13807 # 1000000), (1 # 1))])])];
   (** data/rao/Compound_Cl2.json *)
   mkqc "Cl2" (709054 # 10000000) [
      ("G"%string, mkqp 0 (222965 # 1000) [((3000 # 1), mkqr (29815 # 100) (3000 # 1) [((36903 # 1000), 0); ((251 # 1000000), (1 # 1)); ((- 284500 # 1), (- 2 # 1))])])];
   (** data/rao/Compound_CoO.json *)
   mkqc "CoO" (7493259999999999 # 100000000000000000) [
      ("S"%string, mkqp (- 238906 # 1) (52928 # 1000) [((3000 # 1), mkqr (29815 # 100) (3000 # 1) [((48283 # 1000), 0); ((8535 # 1000000), (1 # 1)); ((167400 # 1), (- 2 # 1))])])];
   (** data/rao/Compound_Cobalt.json *)
   mkqc "Co" (589332 # 10000000) [
      ("L"%string, mkqp (18004 # 1) (4097 # 100) [((3000 # 1), mkqr (29815 # 100) (3000 # 1) [((40376 # 1000), 0)])]);
      ("Salpha"%string, mkqp 0 (30041 # 1000) [((3000 # 1), mkqr (29815 # 100) (3000 # 1) [((2138 # 100), 0); ((14309 # 1000000), (1 # 1)); ((- 87900 # 1), (- 2 # 1))])]);
      ("Sbeta"%string, mkqp (1288 # 1) (32655 # 1000) [((3000 # 1), mkqr (29815 # 100) (3000 # 1) [((13807 # 1000), 0); ((24518 # 1000000), (1 # 1))])])];
   (** data/rao/Compound_Cr.json *)
   mkqc "Cr" (51996099999999996 # 1000000000000000000) [
      ("L"%string, mkqp (26104 # 1) (36233 # 1000) [((3000 # 1), mkqr (29815 # 100) (3000 # 1) [((3933 # 100), 0)])]);
      ("S"%string, mkqp 0 (2364 # 100) [((3000 # 1), mkqr (29815 # 100) (3000 # 1) [((24435 # 1000), 0); ((9874 # 1000000), (1 # 1)); ((- 368200 # 1), (- 2 # 1))])])];
   (** data/rao/Compound_Cu.json *)
   mkqc "Cu" (63546 # 1000000) [
      ("G"%string, mkqp (336812 # 1) (166272 # 1000) [((3000 # 1), mkqr (29815 # 100) (3000 # 1) [((9933 # 1000), 0); ((5071 # 1000000), (1 # 1))])]);
      ("L"%string, mkqp (9305 # 1) (36246 # 1000) [((3000 # 1), mkqr (29815 # 100) (3000 # 1) [((3138 # 100), 0)])]);
      ("S"%string, mkqp 0 (3315 # 100) [((3000 # 1), mkqr (29815 # 100) (3000 # 1) [((22635 # 1000), 0); ((6276 # 1000000), (1 # 1))])])];
   (** data/rao/Compound_Cu2O.json *)
   mkqc "Cu2O" (14309139999999998 # 100000000000000000) [
      ("S"%string, mkqp (- 167360 # 1) (93094 # 1000) [((3000 # 1), mkqr (29815 # 100) (3000 # 1) [((62342 # 1000), 0); ((23849 # 1000000), (1 # 1))])])];
   (** data/rao/Compound_Cu2S.json *)
   mkqc "Cu2S" (15915800000000002 # 100000000000000000) [
      ("Salpha"%string, mkqp (- 79496 # 1) (120918 # 1000) [((3000 # 1), mkqr (29815 # 100) (3000 # 1) [((81588 # 1000), 0)])])];
   (** data/rao/Compound_CuO.json *)
   mkqc "CuO" (795454 # 10000000) [
      ("S"%string, mkqp (- 155226 # 1) (42677 # 1000) [((3000 # 1), mkqr (29815 # 100) (3000 # 1) [((38786 # 1000), 0); ((20083 # 1000000), (1 # 1))])])];
   (** data/rao/Compound_CuS.json *)
   mkqc "CuS" (9561199999999999 # 100000000000000000) [
      ("S"%string, mkqp (- 52300 # 1) (66526 # 1000) [((3000 # 1), mkqr (29815 # 100) (3000 # 1) [((4435 # 100), 0); ((11046 # 1000000), (1 # 1))])])];
   (** data/rao/Compound_CuSO4.json *)
   mkqc "CuSO4" (1596096 # 10000000) [
      ("S"%string, mkqp (- 771100 # 1) (1092 # 10) [((3000 # 1), mkqr (29815 # 100) (3000 # 1) [((78534 # 1000), 0); ((71965 # 1000000), (1 # 1))])])];
   (** data/rao/Compound_F2.json *)
   mkqc "F2" (379968064 # 10000000000) [
      ("G"%string, mkqp 0 (202685 # 1000) [((3000 # 1), mkqr (29815 # 100) (3000 # 1) [((34685 # 1000), 0); ((1841 # 1000000), (1 # 1)); ((- 334700 # 1), (- 2 # 1))])])];
   (** data/rao/Compound_Fe.json *)
   mkqc "Fe" (55845 # 1000000) [
      ("G"%string, mkqp (416308 # 1) (180381 # 1000) [((3000 # 1), mkqr (29815 # 100) (3000 # 1) [((15715 # 1000), 0); ((3473 # 1000000), (1 # 1))])]);
      ("L"%string, mkqp (13129 # 1) (34288 # 1000) [((3000 # 1), mkqr (29815 # 100) (3000 # 1) [((354 # 10), 0); ((3745 # 1000000), (1 # 1))])]);
      ("Salpha"%string, mkqp 0 (2728 # 100) [((3000 # 1), mkqr (29815 # 100) (3000 # 1) [((17489 # 1000), 0); ((24769 # 1000000), (1 # 1))])]);
      ("Sbeta"%string, mkqp (3893 # 1) (29711 # 1000) [((3000 # 1), mkqr (29815 # 100) (3000 # 1) [((28284 # 1000), 0); ((7531 # 1000000), (1 # 1))])]);
      ("Sgamma"%string, mkqp (6778 # 1) (33655 # 1000) [((3000 # 1), mkqr (29815 # 100) (3000 # 1) [((2661 # 100), 0); ((6276 # 1000000), (1 # 1))])])];
   (** data/rao/Compound_Fe2O3.json *)
   mkqc "Fe2O3" (1596882 # 10000000) [
      ("Salpha"%string, mkqp (- 821319 # 1) (87446 # 1000) [((3000 # 1), mkqr (29815 # 100) (3000 # 1) [((98282 # 1000), 0); ((77822 # 1000000), (1 # 1)); ((- 1485300 # 1), (- 2 # 1))])])];
   (** data/rao/Compound_Fe3O4.json *)
   mkqc "Fe3O4" (2315326 # 10000000) [
      ("Salpha"%string, mkqp (- 1116710 # 1) (151461 # 1000) [((3000 # 1), mkqr (29815 # 100) (3000 # 1) [((91546 # 1000), 0); ((201669 # 1000000), (1 # 1))])])];
   (** data/rao/Compound_FeO.json *)
   mkqc "FeO" (7184439999999999 # 100000000000000000) [
      ("S"%string, mkqp (- 264429 # 1) (58785 # 1000) [((3000 # 1), mkqr (29815 # 100) (3000 # 1) [((51798 # 1000), 0); ((6778 # 1000000), (1 # 1)); ((- 159000 # 1), (- 2 # 1))])])];
   (** data/rao/Compound_FeS.json *)
   mkqc "FeS" (87911 # 1000000) [
      ("Salpha"%string, mkqp (- 100416 # 1) (60291 # 1000) [((3000 # 1), mkqr (29815 # 100) (3000 # 1) [((21715 # 1000), 0); ((110458 # 1000000), (1 # 1))])])];
   (** data/rao/Compound_H2.json *)
   mkqc "H2" (20158800000000003 # 10000000000000000000) [
      ("G"%string, mkqp 0 (13057 # 100) [((3000 # 1), mkqr (29815 # 100) (3000 # 1) [((2728 # 100), 0); ((3264 # 1000000), (1 # 1)); ((50200 # 1), (- 2 # 1))])])];
   (** data/rao/Compound_H2O.json *)
   mkqc "H2O" (1801528 # 100000000) [
      ("G"%string, mkqp (- 241814 # 1) (188724 # 1000) [((3000 # 1), mkqr (29815 # 100) (3000 # 1) [((30 # 1), 0); ((10711 # 1000000), (1 # 1)); ((33500 # 1), (- 2 # 1))])]);
      ("L"%string, mkqp (- 285830 # 1) (6995 # 100) [((3000 # 1), mkqr (29815 # 100) (3000 # 1) [((75438 # 1000), 0)])])];
   (** data/rao/Compound_H2S.json *)
   mkqc "H2S" (3408188 # 100000000) [
      ("G"%string, mkqp (- 20502 # 1) (205644 # 1000) [((3000 # 1), mkqr (29815 # 100) (3000 # 1) [((32677 # 1000), 0); ((12385 # 1000000), (1 # 1)); ((- 192500 # 1), (- 2 # 1))])])];
   (** data/rao/Compound_HBr.json *)
   mkqc "HBr" (8091194 # 100000000) [
      ("G"%string, mkqp (- 36380 # 1) (198585 # 1000) [((3000 # 1), mkqr (29815 # 100) (3000 # 1) [((2615 # 100), 0); ((5858 # 1000000), (1 # 1)); ((108800 # 1), (- 2 # 1))])])];
   (** data/rao/Compound_HCl.json *)
   mkqc "HCl" (36460639999999996 # 1000000000000000000) [
      ("G"%string, mkqp (- 92310 # 1) (186786 # 1000) [((3000 # 1), mkqr (29815 # 100) (3000 # 1) [((26527 # 1000), 0); ((4602 # 1000000), (1 # 1)); ((108800 # 1), (- 2 # 1))])])];
   (** data/rao/Compound_HI.json *)
   mkqc "HI" (12791241 # 100000000) [
      ("G"%string, mkqp (26359 # 1) (20648 # 100) [((3000 # 1), mkqr (29815 # 100) (3000 # 1) [((26317 # 1000), 0); ((5941 # 1000000), (1 # 1)); ((92100 # 1), (- 2 # 1))])])];
   (** data/rao/Compound_I2.json *)
   mkqc "I2" (25380894 # 100000000) [
      ("G"%string, mkqp (62425 # 1) (260567 # 1000) [((3000 # 1), mkqr (29815 # 100) (3000 # 1) [((37405 # 1000), 0); ((569 # 1000000), (1 # 1)); ((- 62800 # 1), (- 2 # 1))])])];
   (** data/rao/Compound_K2CO3.json *)
   mkqc "K2CO3" (1382055 # 10000000) [
      ("S"%string, mkqp (- 1150182 # 1) (155519 # 1000) [((3000 # 1), mkqr (29815 # 100) (3000 # 1) [((80291 # 1000), 0); ((109035 # 1000000), (1 # 1))])])];
   (** data/rao/Compound_Mg.json *)
   mkqc "Mg" (24305 # 1000000) [
      ("G"%string, mkqp (147612 # 1) (148549 # 1000) [((3000 # 1), mkqr (29815 # 100) (3000 # 1) [((20786 # 1000), 0)])]);
      ("L"%string, mkqp (9029 # 1) (42505 # 1000) [((3000 # 1), mkqr (29815 # 100) (3000 # 1) [((2205 # 100), 0); ((10904 # 1000000), (1 # 1))])]);
      ("S"%string, mkqp 0 (3268 # 100) [((3000 # 1), mkqr (29815 # 100) (3000 # 1) [((223 # 10), 0); ((1025 # 100000), (1 # 1)); ((- 43100 # 1), (- 2 # 1))])])];
   (** data/rao/Compound_MgCO3.json *)
   mkqc "MgCO3" (843139 # 10000000) [
      ("S"%string, mkqp (- 1111689 # 1) (65856 # 1000) [((3000 # 1), mkqr (29815 # 100) (3000 # 1) [((77906 # 1000), 0); ((57739 # 1000000), (1 # 1)); ((- 1740500 # 1), (- 2 # 1))])])];
   (** data/rao/Compound_MgO.json *)
   mkqc "MgO" (40304400000000004 # 1000000000000000000) [
      ("S"%string, mkqp (- 601500 # 1) (2695 # 100) [((3000 # 1), mkqr (29815 # 100) (3000 # 1) [((48995 # 1000), 0); ((3138 # 1000000), (1 # 1)); ((- 1171500 # 1), (- 2 # 1))])])];
   (** data/rao/Compound_N2.json *)
   mkqc "N2" (2801348 # 100000000) [
      ("G"%string, mkqp 0 (191502 # 1000) [((3000 # 1), mkqr (29815 # 100) (3000 # 1) [((27865 # 1000), 0); ((4268 # 1000000), (1 # 1))])])];
   (** data/rao/Compound_NH3.json *)
   mkqc "NH3" (1703056 # 100000000) [
      ("G"%string, mkqp (- 45940 # 1) (19267 # 100) [((3000 # 1), mkqr (29815 # 100) (3000 # 1) [((37321 # 1000), 0); ((18661 # 1000000), (1 # 1)); ((- 648500 # 1), (- 2 # 1))])])];
   (** data/rao/Compound_Na2CO3.json *)
   mkqc "Na2CO3" (10598844 # 100000000) [
      ("S"%string, mkqp (- 1130935 # 1) (138783 # 1000) [((3000 # 1), mkqr (29815 # 100) (3000 # 1) [((58492 # 1000), 0); ((22761 # 100000), (1 # 1)); ((- 1309600 # 1), (- 2 # 1))])])];
   (** data/rao/Compound_Ni.json *)
   mkqc "Ni" (586934 # 10000000) [
      ("L"%string, mkqp (8322 # 1) (2738 # 100) [((3000 # 1), mkqr (29815 # 100) (3000 # 1) [((38911 # 1000), 0)])]);
      ("Salpha"%string, mkqp 0 (29874 # 1000) [((3000 # 1), mkqr (29815 # 100) (3000 # 1) [((12535 # 1000), 0); ((35815 # 1000000), (1 # 1)); ((246900 # 1), (- 2 # 1))])]);
      ("Sbeta"%string, mkqp (625 # 1) (30945 # 1000) [((3000 # 1), mkqr (29815 # 100) (3000 # 1) [((25104 # 1000), 0); ((7531 # 1000000), (1 # 1))])])];
   (** data/rao/Compound_Ni3S2.json *)
   mkqc "Ni3S2" (2402122 # 10000000) [
      ("Salpha"%string, mkqp (- 217986 # 1) (133888 # 1000) [((3000 # 1), mkqr (29815 # 100) (3000 # 1) [((102006 # 1000), 0); ((6707 # 100000), (1 # 1)); ((- 386200 # 1), (- 2 # 1))])])];
   (** data/rao/Compound_NiO.json *)
   mkqc "NiO" (7469279999999999 # 100000000000000000) [
      ("Salpha"%string, mkqp (- 240580 # 1) (38074 # 1000) [((3000 # 1), mkqr (29815 # 100) (3000 # 1) [((- 20878 # 1000), 0); ((157235 # 1000000), (1 # 1)); ((1627600 # 1), (- 2 # 1))])])];
   (** data/rao/Compound_NiS.json *)
   mkqc "NiS" (907594 # 10000000) [
      ("Salpha"%string, mkqp (- 94140 # 1) (52928 # 1000) [((3000 # 1), mkqr (29815 # 100) (3000 # 1) [((43756 # 1000), 0); ((222 # 10000), (1 # 1)); ((- 290400 # 1), (- 2 # 1))])])];
   (** data/rao/Compound_O2.json *)
   mkqc "O2" (319988 # 10000000) [
      ("G"%string, mkqp 0 (205037 # 1000) [((3000 # 1), mkqr (29815 # 100) (3000 # 1) [((29957 # 1000), 0); ((4184 # 1000000), (1 # 1)); ((- 167400 # 1), (- 2 # 1))])])];
   (** data/rao/Compound_Pb.json *)
   mkqc "Pb" (2072 # 10000) [
      ("G"%string, mkqp (195602 # 1) (175268 # 1000) [((3000 # 1), mkqr (29815 # 100) (3000 # 1) [((6672 # 1000), 0); ((8964 # 1000000), (1 # 1))])]);
      ("L"%string, mkqp (4289 # 1) (71718 # 1000) [((3000 # 1), mkqr (29815 # 100) (3000 # 1) [((32426 # 1000), 0); ((3096 # 1000000), (1 # 1))])]);
      ("S"%string, mkqp 0 (648 # 10) [((3000 # 1), mkqr (29815 # 100) (3000 # 1) [((23556 # 1000), 0); ((9749 # 1000000), (1 # 1))])])];
   (** data/rao/Compound_PbO.json *)
   mkqc "PbO" (2231994 # 10000000) [
      ("L"%string, mkqp (- 195443 # 1) (85965 # 1000) [((3000 # 1), mkqr (29815 # 100) (3000 # 1) [((65 # 1), 0)])]);
      ("Sred"%string, mkqp (- 219283 # 1) (6527 # 100) [((3000 # 1), mkqr (29815 # 100) (3000 # 1) [((382 # 10), 0); ((25522 # 1000000), (1 # 1))])]);
      ("Syellow"%string, mkqp (- 217861 # 1) (67362 # 1000) [((3000 # 1), mkqr (29815 # 100) (3000 # 1) [((45089 # 1000), 0); ((1223 # 100000), (1 # 1))])])];
   (** data/rao/Compound_S.json *)
   mkqc "S" (32066000000000004 # 1000000000000000000) [
      ("Smono"%string, mkqp (335 # 1) (3297 # 100) [((3000 # 1), mkqr (29815 # 100) (3000 # 1) [((68354 # 1000), 0); ((- 118545 # 1000000), (1 # 1))])]);
      ("Sortho"%string, mkqp 0 (32054 # 1000) [((3000 # 1), mkqr (29815 # 100) (3000 # 1) [((14811 # 1000), 0); ((24058 # 1000000), (1 # 1)); ((72800 # 1), (- 2 # 1))])])];
   (** data/rao/Compound_S2.json *)
   mkqc "S2" (6413200000000001 # 100000000000000000) [
      ("G"%string, mkqp (128490 # 1) (228055 # 1000) [((3000 # 1), mkqr (29815 # 100) (3000 # 1) [((36485 # 1000), 0); ((669 # 1000000), (1 # 1)); ((- 376600 # 1), (- 2 # 1))])])];
   (** data/rao/Compound_SO2.json *)
   mkqc "SO2" (640648 # 10000000) [
      ("G"%string, mkqp (- 296810 # 1) (24811 # 100) [((3000 # 1), mkqr (29815 # 100) (3000 # 1) [((4343 # 100), 0); ((10627 # 1000000), (1 # 1)); ((- 594100 # 1), (- 2 # 1))])])];
   (** data/rao/Compound_SO3.json *)
   mkqc "SO3" (800642 # 10000000) [
      ("G"%string, mkqp (- 395723 # 1) (256688 # 1000) [((3000 # 1), mkqr (29815 # 100) (3000 # 1) [((57321 # 1000), 0); ((26861 # 1000000), (1 # 1)); ((- 1305400 # 1), (- 2 # 1))])])];
   (** data/rao/Compound_Sb.json *)
   mkqc "Sb" (12176000000000001 # 100000000000000000) [
      ("L"%string, mkqp (17481 # 1) (62692 # 1000) [((3000 # 1), mkqr (29815 # 100) (3000 # 1) [((3138 # 100), 0)])]);
      ("S"%string, mkqp 0 (45522 # 1000) [((3000 # 1), mkqr (29815 # 100) (3000 # 1) [((23054 # 1000), 0); ((728 # 100000), (1 # 1))])])];
   (** data/rao/Compound_Si.json *)
   mkqc "Si" (280855 # 10000000) [
      ("L"%string, mkqp (48472 # 1) (44459 # 1000) [((3000 # 1), mkqr (29815 # 100) (3000 # 1) [((27196 # 1000), 0)])]);
      ("S"%string, mkqp 0 (1881 # 100) [((3000 # 1), mkqr (29815 # 100) (3000 # 1) [((23933 # 1000), 0); ((2469 # 1000000), (1 # 1)); ((- 414200 # 1), (- 2 # 1))])])];
   (** data/rao/Compound_SiO2.json *)
   mkqc "SiO2" (600843 # 10000000) [
      ("S"%string, mkqp (- 910700 # 1) (4146 # 100) [((3000 # 1), mkqr (29815 # 100) (3000 # 1) [((46945 # 1000), 0); ((34309 # 1000000), (1 # 1)); ((- 1129700 # 1), (- 2 # 1))])])];
   (** data/rao/Compound_Sn.json *)
   mkqc "Sn" (11871 # 100000) [
      ("L"%string, mkqp (6634 # 1) (6397 # 100) [((3000 # 1), mkqr (29815 # 100) (3000 # 1) [((34685 # 1000), 0); ((- 9205 # 1000000), (1 # 1))])]);
      ("Sgray"%string, mkqp (- 1967 # 1) (44141 # 1000) [((3000 # 1), mkqr (29815 # 100) (3000 # 1) [])]);
      ("Swhite"%string, mkqp 0 (51212 # 1000) [((3000 # 1), mkqr (29815 # 100) (3000 # 1) [((21589 # 1000), 0); ((18159 # 1000000), (1 # 1))])])];
   (** data/rao/Compound_SnO2.json *)
   mkqc "SnO2" (1507088 # 10000000) [
      ("S"%string, mkqp (- 580740 # 1) (523 # 10) [((3000 # 1), mkqr (29815 # 100) (3000 # 1) [((73889 # 1000), 0); ((10042 # 1000000), (1 # 1)); ((- 2158900 # 1), (- 2 # 1))])])];
   (** data/rao/Compound_Ti.json *)
   mkqc "Ti" (47867 # 1000000) [
      ("Salpha"%string, mkqp 0 (30627 # 1000) [((3000 # 1), mkqr (29815 # 100) (3000 # 1) [((22092 # 1000), 0); ((10042 # 1000000), (1 # 1))])]);
      ("Sbeta"%string, mkqp (6587 # 1) (3838 # 100) [((3000 # 1), mkqr (29815 # 100) (3000 # 1) [((19832 # 1000), 0); ((795 # 100000), (1 # 1))])])];
   (** data/rao/Compound_TiO2.json *)
   mkqc "TiO2" (7986579999999999 # 100000000000000000) [
      ("Srutile"%string, mkqp (- 944747 # 1) (50334 # 1000) [((3000 # 1), mkqr (29815 # 100) (3000 # 1) [((75187 # 1000), 0); ((1172 # 1000000), (1 # 1)); ((- 1820000 # 1), (- 2 # 1))])])];
   (** data/rao/Compound_U.json *)
   mkqc "U" (2380289 # 10000000) [
      ("Salpha"%string, mkqp 0 (502 # 10) [((3000 # 1), mkqr (29815 # 100) (3000 # 1) [((1092 # 100), 0); ((37447 # 1000000), (1 # 1)); ((489500 # 1), (- 2 # 1))])])];
   (** data/rao/Compound_UO2.json *)
   mkqc "UO2" (2700277 # 10000000) [
      ("S"%string, mkqp (- 1085000 # 1) (7703 # 100) [((3000 # 1), mkqr (29815 # 100) (3000 # 1) [((80333 # 1000), 0); ((6778 # 1000000), (1 # 1)); ((- 1656900 # 1), (- 2 # 1))])])];
   (** data/rao/Compound_V.json *)
   mkqc "V" (509415 # 10000000) [
      ("S"%string, mkqp 0 (28953 # 1000) [((3000 # 1), mkqr (29815 # 100) (3000 # 1) [((20502 # 1000), 0); ((10795 # 1000000), (1 # 1)); ((83700 # 1), (- 2 # 1))])])];
   (** data/rao/Compound_W.json *)
   mkqc "W" (18384 # 100000) [
      ("S"%string, mkqp 0 (32635 # 1000) [((3000 # 1), mkqr (29815 # 100) (3000 # 1) [((23807 # 1000), 0); ((3264 # 1000000), (1 # 1))])])];
   (** data/rao/Compound_Zn.json *)
   mkqc "Zn" (6539 # 100000) [
      ("G"%string, mkqp (130420 # 1) (160875 # 1000) [((3000 # 1), mkqr (29815 # 100) (3000 # 1) [((20786 # 1000), 0)])]);
      ("L"%string, mkqp (5693 # 1) (48519 # 1000) [((3000 # 1), mkqr (29815 # 100) (3000 # 1) [((3138 # 100), 0)])]);
      ("S"%string, mkqp 0 (4163 # 100) [((3000 # 1), mkqr (29815 # 100) (3000 # 1) [((22384 # 1000), 0); ((10042 # 1000000), (1 # 1))])])];
   (** data/rao/Compound_ZnO.json *)
   mkqc "ZnO" (813894 # 10000000) [
      ("S"%string, mkqp (- 350640 # 1) (4364 # 100) [((3000 # 1), mkqr (29815 # 100) (3000 # 1) [((48999 # 1000), 0); ((5105 # 1000000), (1 # 1)); ((- 912100 # 1), (- 2 # 1))])])];
   (** data/rao/Compound_ZnS.json *)
   mkqc "ZnS" (97456 # 1000000) [
      ("S"%string, mkqp (- 205225 # 1) (57656 # 1000) [((3000 # 1), mkqr (29815 # 100) (3000 # 1) [((50877 # 1000), 0); ((188 # 1000), (1 # 1)); ((- 569000 # 1), (- 2 # 1))])])];
   (** data/rao/Compound_Zr.json *)
   mkqc "Zr" (91224 # 1000000) [
      ("Salpha"%string, mkqp 0 (38995 # 1000) [((3000 # 1), mkqr (29815 # 100) (3000 # 1) [((21966 # 1000), 0); ((11632 # 1000000), (1 # 1))])])];
   (** data/rao/Compound_ZrO2.json *)
   mkqc "ZrO2" (12322280000000001 # 100000000000000000) [
      ("S1"%string, mkqp (- 1100810 # 1) (5071 # 100) [((3000 # 1), mkqr (29815 # 100) (3000 # 1) [((69622 # 1000), 0); ((7531 # 1000000), (1 # 1)); ((- 1405800 # 1), (- 2 # 1))])])]
  ].
