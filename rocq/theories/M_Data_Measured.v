(** GENERATED by scripts/gen_data.py from
    auxi/tools/materialphysicalproperties/data: the measurements in the data sets
    of the polynomial models (columns that pandas does not read as numbers are left
    out; decimal literals are kept exactly), and the data set, material and symbol
    that the models record. *)
From Verif Require Import Prelude.
Local Open Scope string_scope.
Local Open Scope list_scope.
Local Open Scope Q_scope.

Record source := mksrc { src_dataset : string; src_material : string; src_symbol : string }.
Definition model_sources : list (string * source) :=
  [
   ("air-cp-polynomialmodelt-dataset-air-lienhard2015", mksrc "dataset-air-lienhard2015.csv" "Air" "Cp");
   ("air-cp-polynomialmodelt-dataset-air-lienhard2018", mksrc "dataset-air-lienhard2018.csv" "Air" "Cp");
   ("air-k-polynomialmodelt-dataset-air-lienhard2015", mksrc "dataset-air-lienhard2015.csv" "Air" "k");
   ("air-k-polynomialmodelt-dataset-air-lienhard2018", mksrc "dataset-air-lienhard2018.csv" "Air" "k");
   ("air-mu-polynomialmodelt-dataset-air-lienhard2015", mksrc "dataset-air-lienhard2015.csv" "Air" "mu");
   ("air-mu-polynomialmodelt-dataset-air-lienhard2018", mksrc "dataset-air-lienhard2018.csv" "Air" "mu");
   ("air-rho-polynomialmodelt-dataset-air-lienhard2015", mksrc "dataset-air-lienhard2015.csv" "Air" "rho");
   ("air-rho-polynomialmodelt-dataset-air-lienhard2018", mksrc "dataset-air-lienhard2018.csv" "Air" "rho");
   ("ammonia-cp-polynomialmodelt-dataset-ammonia-lienhard2018", mksrc "dataset-ammonia-lienhard2018.csv" "Ammonia" "Cp");
   ("ammonia-k-polynomialmodelt-dataset-ammonia-lienhard2018", mksrc "dataset-ammonia-lienhard2018.csv" "Ammonia" "k");
   ("ammonia-mu-polynomialmodelt-dataset-ammonia-lienhard2018", mksrc "dataset-ammonia-lienhard2018.csv" "Ammonia" "mu");
   ("ammonia-rho-polynomialmodelt-dataset-ammonia-lienhard2018", mksrc "dataset-ammonia-lienhard2018.csv" "Ammonia" "rho");
   ("argon-cp-polynomialmodelt-dataset-argon-lienhard2018", mksrc "dataset-argon-lienhard2018.csv" "Argon" "Cp");
   ("argon-k-polynomialmodelt-dataset-argon-lienhard2018", mksrc "dataset-argon-lienhard2018.csv" "Argon" "k");
   ("argon-mu-polynomialmodelt-dataset-argon-lienhard2018", mksrc "dataset-argon-lienhard2018.csv" "Argon" "mu");
   ("argon-rho-polynomialmodelt-dataset-argon-lienhard2018", mksrc "dataset-argon-lienhard2018.csv" "Argon" "rho");
   ("carbon-dioxide-cp-polynomialmodelt-dataset-carbon-dioxide-lienhard2018", mksrc "dataset-carbon-dioxide-lienhard2018.csv" "Carbon Dioxide" "Cp");
   ("carbon-dioxide-k-polynomialmodelt-dataset-carbon-dioxide-lienhard2018", mksrc "dataset-carbon-dioxide-lienhard2018.csv" "Carbon Dioxide" "k");
   ("carbon-dioxide-mu-polynomialmodelt-dataset-carbon-dioxide-lienhard2018", mksrc "dataset-carbon-dioxide-lienhard2018.csv" "Carbon Dioxide" "mu");
   ("carbon-dioxide-rho-polynomialmodelt-dataset-carbon-dioxide-lienhard2018", mksrc "dataset-carbon-dioxide-lienhard2018.csv" "Carbon Dioxide" "rho");
   ("carbon-monoxide-cp-polynomialmodelt-dataset-carbon-monoxide-lienhard2018", mksrc "dataset-carbon-monoxide-lienhard2018.csv" "Carbon Monoxide" "Cp");
   ("carbon-monoxide-k-polynomialmodelt-dataset-carbon-monoxide-lienhard2018", mksrc "dataset-carbon-monoxide-lienhard2018.csv" "Carbon Monoxide" "k");
   ("carbon-monoxide-mu-polynomialmodelt-dataset-carbon-monoxide-lienhard2018", mksrc "dataset-carbon-monoxide-lienhard2018.csv" "Carbon Monoxide" "mu");
   ("carbon-monoxide-rho-polynomialmodelt-dataset-carbon-monoxide-lienhard2018", mksrc "dataset-carbon-monoxide-lienhard2018.csv" "Carbon Monoxide" "rho");
   ("nitrogen-cp-polynomialmodelt-dataset-nitrogen-lienhard2018", mksrc "dataset-nitrogen-lienhard2018.csv" "Nitrogen" "Cp");
   ("nitrogen-k-polynomialmodelt-dataset-nitrogen-lienhard2018", mksrc "dataset-nitrogen-lienhard2018.csv" "Nitrogen" "k");
   ("nitrogen-mu-polynomialmodelt-dataset-nitrogen-lienhard2018", mksrc "dataset-nitrogen-lienhard2018.csv" "Nitrogen" "mu");
   ("nitrogen-rho-polynomialmodelt-dataset-nitrogen-lienhard2018", mksrc "dataset-nitrogen-lienhard2018.csv" "Nitrogen" "rho");
   ("oxygen-cp-polynomialmodelt-dataset-oxygen-lienhard2018", mksrc "dataset-oxygen-lienhard2018.csv" "Oxygen" "Cp");
   ("oxygen-k-polynomialmodelt-dataset-oxygen-lienhard2018", mksrc "dataset-oxygen-lienhard2018.csv" "Oxygen" "k");
   ("oxygen-mu-polynomialmodelt-dataset-oxygen-lienhard2018", mksrc "dataset-oxygen-lienhard2018.csv" "Oxygen" "mu");
   ("oxygen-rho-polynomialmodelt-dataset-oxygen-lienhard2018", mksrc "dataset-oxygen-lienhard2018.csv" "Oxygen" "rho");
   ("water-beta", mksrc "dataset-water-lienhard2015.csv" "Water" "beta");
   ("water-cp", mksrc "dataset-water-lienhard2015.csv" "Water" "Cp");
   ("water-k", mksrc "dataset-water-lienhard2015.csv" "Water" "k");
   ("water-mu", mksrc "dataset-water-lienhard2015.csv" "Water" "mu");
   ("water-nu", mksrc "dataset-water-lienhard2015.csv" "Water" "nu");
   ("water-rho", mksrc "dataset-water-lienhard2015.csv" "Water" "rho");
   ("water-vapour-cp-polynomialmodelt-dataset-water-vapour-lienhard2018", mksrc "dataset-water-vapour-lienhard2018.csv" "Water Vapour" "Cp");
   ("water-vapour-k-polynomialmodelt-dataset-water-vapour-lienhard2018", mksrc "dataset-water-vapour-lienhard2018.csv" "Water Vapour" "k");
   ("water-vapour-mu-polynomialmodelt-dataset-water-vapour-lienhard2018", mksrc "dataset-water-vapour-lienhard2018.csv" "Water Vapour" "mu");
   ("water-vapour-rho-polynomialmodelt-dataset-water-vapour-lienhard2018", mksrc "dataset-water-vapour-lienhard2018.csv" "Water Vapour" "rho")
  ].
Record measurements := mkms { ms_material : string; ms_columns : list (string * list Q) }.
Definition measured_data : list (string * measurements) :=
  [
   (** data/dataset-air-lienhard2015.csv *)
   ("dataset-air-lienhard2015.csv", mkms "Air" [
    ("T", [(100 # 1); (150 # 1); (200 # 1); (250 # 1); (260 # 1); (270 # 1); (280 # 1); (290 # 1); (300 # 1); (310 # 1); (320 # 1); (330 # 1); (340 # 1); (350 # 1); (400 # 1); (450 # 1); (500 # 1); (550 # 1); (600 # 1); (650 # 1); (700 # 1); (750 # 1); (800 # 1); (850 # 1); (900 # 1); (950 # 1); (1000 # 1); (1100 # 1); (1200 # 1); (1300 # 1); (1400 # 1); (1500 # 1)]);
    ("rho", [(3605 # 1000); (2368 # 1000); (1769 # 1000); (1412 # 1000); (1358 # 1000); (1308 # 1000); (1261 # 1000); (1217 # 1000); (1177 # 1000); (1139 # 1000); (1103 # 1000); (107 # 100); (1038 # 1000); (1008 # 1000); (8821 # 10000); (784 # 1000); (7056 # 10000); (6414 # 10000); (588 # 1000); (5427 # 10000); (504 # 1000); (4704 # 10000); (441 # 1000); (415 # 1000); (392 # 1000); (3716 # 10000); (3528 # 10000); (3207 # 10000); (294 # 1000); (2714 # 10000); (252 # 1000); (2352 # 10000)]);
    ("Cp", [(1039 # 1); (1012 # 1); (1007 # 1); (1006 # 1); (1006 # 1); (1006 # 1); (1006 # 1); (1006 # 1); (1007 # 1); (1007 # 1); (1008 # 1); (1008 # 1); (1009 # 1); (1009 # 1); (1014 # 1); (1021 # 1); (1030 # 1); (1040 # 1); (1051 # 1); (1063 # 1); (1075 # 1); (1087 # 1); (1099 # 1); (1110 # 1); (1121 # 1); (1131 # 1); (1142 # 1); (1159 # 1); (1175 # 1); (1189 # 1); (1201 # 1); (1211 # 1)]);
    ("mu", [(711 # 100000000); (104 # 10000000); (133 # 10000000); (161 # 10000000); (165 # 10000000); (17 # 1000000); (175 # 10000000); (18 # 1000000); (186 # 10000000); (189 # 10000000); (194 # 10000000); (198 # 10000000); (203 # 10000000); (209 # 10000000); (231 # 10000000); (252 # 10000000); (271 # 10000000); (29 # 1000000); (308 # 10000000); (326 # 10000000); (343 # 10000000); (359 # 10000000); (375 # 10000000); (39 # 1000000); (405 # 10000000); (42 # 1000000); (434 # 10000000); (462 # 10000000); (489 # 10000000); (515 # 10000000); (54 # 1000000); (565 # 10000000)]);
    ("nu", [(197 # 100000000); (437 # 100000000); (754 # 100000000); (114 # 10000000); (121 # 10000000); (13 # 1000000); (139 # 10000000); (148 # 10000000); (158 # 10000000); (166 # 10000000); (175 # 10000000); (185 # 10000000); (195 # 10000000); (207 # 10000000); (262 # 10000000); (321 # 10000000); (385 # 10000000); (452 # 10000000); (524 # 10000000); (6 # 100000); (68 # 1000000); (762 # 10000000); (85 # 1000000); (94 # 1000000); (103 # 1000000); (113 # 1000000); (123 # 1000000); (144 # 1000000); (166 # 1000000); (19 # 100000); (214 # 1000000); (24 # 100000)]);
    ("k", [(941 # 100000); (1406 # 100000); (1836 # 100000); (2241 # 100000); (2329 # 100000); (24 # 1000); (2473 # 100000); (2544 # 100000); (2623 # 100000); (2684 # 100000); (2753 # 100000); (2821 # 100000); (2888 # 100000); (2984 # 100000); (3328 # 100000); (3656 # 100000); (3971 # 100000); (4277 # 100000); (4573 # 100000); (4863 # 100000); (5146 # 100000); (5425 # 100000); (5699 # 100000); (5969 # 100000); (6237 # 100000); (6501 # 100000); (6763 # 100000); (7281 # 100000); (7792 # 100000); (8297 # 100000); (8798 # 100000); (9296 # 100000)]);
    ("alpha", [(251 # 100000000); (587 # 100000000); (103 # 10000000); (158 # 10000000); (171 # 10000000); (182 # 10000000); (188 # 10000000); (208 # 10000000); (221 # 10000000); (234 # 10000000); (248 # 10000000); (262 # 10000000); (282 # 10000000); (293 # 10000000); (372 # 10000000); (457 # 10000000); (546 # 10000000); (641 # 10000000); (74 # 1000000); (843 # 10000000); (95 # 1000000); (106 # 1000000); (118 # 1000000); (13 # 100000); (142 # 1000000); (155 # 1000000); (168 # 1000000); (196 # 1000000); (226 # 1000000); (257 # 1000000); (291 # 1000000); (326 # 1000000)]);
    ("Pr", [(784 # 1000); (745 # 1000); (731 # 1000); (721 # 1000); (712 # 1000); (712 # 1000); (711 # 1000); (71 # 100); (713 # 1000); (709 # 1000); (708 # 1000); (708 # 1000); (707 # 1000); (707 # 1000); (704 # 1000); (703 # 1000); (704 # 1000); (706 # 1000); (708 # 1000); (712 # 1000); (715 # 1000); (719 # 1000); (723 # 1000); (725 # 1000); (728 # 1000); (731 # 1000); (733 # 1000); (736 # 1000); (738 # 1000); (738 # 1000); (738 # 1000); (735 # 1000)])]);
   (** data/dataset-air-lienhard2018.csv *)
   ("dataset-air-lienhard2018.csv", mkms "Air" [
    ("T", [(100 # 1); (150 # 1); (200 # 1); (250 # 1); (260 # 1); (270 # 1); (280 # 1); (290 # 1); (300 # 1); (310 # 1); (320 # 1); (330 # 1); (340 # 1); (350 # 1); (400 # 1); (450 # 1); (500 # 1); (550 # 1); (600 # 1); (650 # 1); (700 # 1); (750 # 1); (800 # 1); (850 # 1); (900 # 1); (950 # 1); (1000 # 1); (1100 # 1); (1200 # 1); (1300 # 1); (1400 # 1); (1500 # 1)]);
    ("rho", [(3605 # 1000); (2368 # 1000); (1769 # 1000); (1412 # 1000); (1358 # 1000); (1308 # 1000); (1261 # 1000); (1217 # 1000); (1177 # 1000); (1139 # 1000); (1103 # 1000); (107 # 100); (1038 # 1000); (1008 # 1000); (8821 # 10000); (784 # 1000); (7056 # 10000); (6414 # 10000); (588 # 1000); (5427 # 10000); (504 # 1000); (4704 # 10000); (441 # 1000); (415 # 1000); (392 # 1000); (3716 # 10000); (3528 # 10000); (3207 # 10000); (294 # 1000); (2714 # 10000); (252 # 1000); (2352 # 10000)]);
    ("Cp", [(1039 # 1); (1012 # 1); (1007 # 1); (1006 # 1); (1006 # 1); (1006 # 1); (1006 # 1); (1006 # 1); (1007 # 1); (1007 # 1); (1008 # 1); (1008 # 1); (1009 # 1); (1009 # 1); (1014 # 1); (1021 # 1); (1030 # 1); (1040 # 1); (1051 # 1); (1063 # 1); (1075 # 1); (1087 # 1); (1099 # 1); (1110 # 1); (1121 # 1); (1131 # 1); (1142 # 1); (1159 # 1); (1175 # 1); (1189 # 1); (1201 # 1); (1211 # 1)]);
    ("mu", [(711 # 100000000); (1035 # 100000000); (1333 # 100000000); (1606 # 100000000); (1649 # 100000000); (1699 # 100000000); (1747 # 100000000); (1795 # 100000000); (1857 # 100000000); (1889 # 100000000); (1935 # 100000000); (1981 # 100000000); (2025 # 100000000); (209 # 10000000); (231 # 10000000); (2517 # 100000000); (2713 # 100000000); (2902 # 100000000); (3082 # 100000000); (3257 # 100000000); (3425 # 100000000); (3588 # 100000000); (3747 # 100000000); (3901 # 100000000); (4052 # 100000000); (4199 # 100000000); (4343 # 100000000); (4622 # 100000000); (4891 # 100000000); (5151 # 100000000); (5403 # 100000000); (5648 # 100000000)]);
    ("k", [(941 # 100000); (1406 # 100000); (1836 # 100000); (2241 # 100000); (2329 # 100000); (24 # 1000); (2473 # 100000); (2544 # 100000); (2623 # 100000); (2684 # 100000); (2753 # 100000); (2821 # 100000); (2888 # 100000); (2984 # 100000); (3328 # 100000); (3656 # 100000); (3971 # 100000); (4277 # 100000); (4573 # 100000); (4863 # 100000); (5146 # 100000); (5425 # 100000); (5699 # 100000); (5969 # 100000); (6237 # 100000); (6501 # 100000); (6763 # 100000); (7281 # 100000); (7792 # 100000); (8297 # 100000); (8798 # 100000); (9296 # 100000)]);
    ("Pr", [(784 # 1000); (745 # 1000); (731 # 1000); (721 # 1000); (712 # 1000); (712 # 1000); (711 # 1000); (71 # 100); (713 # 1000); (709 # 1000); (708 # 1000); (708 # 1000); (707 # 1000); (707 # 1000); (704 # 1000); (703 # 1000); (704 # 1000); (706 # 1000); (708 # 1000); (712 # 1000); (715 # 1000); (719 # 1000); (723 # 1000); (725 # 1000); (728 # 1000); (731 # 1000); (733 # 1000); (736 # 1000); (738 # 1000); (738 # 1000); (738 # 1000); (735 # 1000)])]);
   (** data/dataset-ammonia-lienhard2018.csv *)
   ("dataset-ammonia-lienhard2018.csv", mkms "Ammonia" [
    ("T", [(240 # 1); (273 # 1); (323 # 1); (373 # 1); (423 # 1); (473 # 1)]);
    ("rho", [(8888 # 10000); (7719 # 10000); (6475 # 10000); (5589 # 10000); (492 # 1000); (4396 # 10000)]);
    ("Cp", [(2296 # 1); (2180 # 1); (2176 # 1); (2238 # 1); (2326 # 1); (2425 # 1)]);
    ("mu", [(806 # 100000000); (919 # 100000000); (1101 # 100000000); (1292 # 100000000); (1487 # 100000000); (1682 # 100000000)]);
    ("nu", [(907 # 100000000); (119 # 10000000); (17 # 1000000); (231 # 10000000); (301 # 10000000); (382 # 10000000)]);
    ("k", [(21 # 1000); (229 # 10000); (274 # 10000); (334 # 10000); (407 # 10000); (487 # 10000)]);
    ("alpha", [(1028 # 100000000); (1361 # 100000000); (1943 # 100000000); (2671 # 100000000); (3554 # 100000000); (4565 # 100000000)]);
    ("Pr", [(882 # 1000); (874 # 1000); (876 # 1000); (866 # 1000); (85 # 100); (838 # 1000)])]);
   (** data/dataset-argon-lienhard2018.csv *)
   ("dataset-argon-lienhard2018.csv", mkms "Argon" [
    ("T", [(150 # 1); (200 # 1); (250 # 1); (300 # 1); (350 # 1); (400 # 1); (450 # 1); (500 # 1); (550 # 1); (600 # 1); (650 # 1); (700 # 1)]);
    ("rho", [(3269 # 1000); (2441 # 1000); (195 # 100); (1624 # 1000); (1391 # 1000); (1217 # 1000); (1082 # 1000); (9735 # 10000); (885 # 1000); (8112 # 10000); (7488 # 10000); (6953 # 10000)]);
    ("Cp", [(5277 # 10); (5237 # 10); (5222 # 10); (5215 # 10); (5212 # 10); (5209 # 10); (5208 # 10); (5207 # 10); (5206 # 10); (5206 # 10); (5205 # 10); (5205 # 10)]);
    ("mu", [(12 # 1000000); (159 # 10000000); (195 # 10000000); (229 # 10000000); (259 # 10000000); (288 # 10000000); (316 # 10000000); (342 # 10000000); (367 # 10000000); (391 # 10000000); (414 # 10000000); (436 # 10000000)]);
    ("nu", [(366 # 100000000); (652 # 100000000); (1 # 100000); (141 # 10000000); (186 # 10000000); (237 # 10000000); (292 # 10000000); (351 # 10000000); (414 # 10000000); (482 # 10000000); (552 # 10000000); (627 # 10000000)]);
    ("k", [(939 # 100000); (1245 # 100000); (1527 # 100000); (1787 # 100000); (2029 # 100000); (2256 # 100000); (247 # 10000); (2675 # 100000); (287 # 10000); (3057 # 100000); (3238 # 100000); (3412 # 100000)]);
    ("alpha", [(544 # 100000000); (974 # 100000000); (15 # 1000000); (211 # 10000000); (28 # 1000000); (356 # 10000000); (439 # 10000000); (528 # 10000000); (623 # 10000000); (724 # 10000000); (831 # 10000000); (943 # 10000000)]);
    ("Pr", [(673 # 1000); (669 # 1000); (668 # 1000); (667 # 1000); (666 # 1000); (666 # 1000); (666 # 1000); (666 # 1000); (665 # 1000); (665 # 1000); (665 # 1000); (665 # 1000)])]);
   (** data/dataset-carbon-dioxide-lienhard2018.csv *)
   ("dataset-carbon-dioxide-lienhard2018.csv", mkms "Carbon Dioxide" [
    ("T", [(220 # 1); (250 # 1); (300 # 1); (350 # 1); (400 # 1); (450 # 1); (500 # 1); (550 # 1); (600 # 1)]);
    ("rho", [(24733 # 10000); (21657 # 10000); (17973 # 10000); (15362 # 10000); (13424 # 10000); (11918 # 10000); (10732 # 10000); (9739 # 10000); (8938 # 10000)]);
    ("Cp", [(783 # 1); (804 # 1); (853 # 1); (900 # 1); (942 # 1); (980 # 1); (1013 # 1); (1047 # 1); (1076 # 1)]);
    ("mu", [(1106 # 100000000); (1257 # 100000000); (1502 # 100000000); (174 # 10000000); (197 # 10000000); (2188 # 100000000); (2402 # 100000000); (2605 # 100000000); (28 # 1000000)]);
    ("nu", [(4472 # 1000000000); (5804 # 1000000000); (8357 # 1000000000); (1133 # 100000000); (1468 # 100000000); (1836 # 100000000); (2238 # 100000000); (2675 # 100000000); (3133 # 100000000)]);
    ("k", [(109 # 10000); (1295 # 100000); (1677 # 100000); (2092 # 100000); (2515 # 100000); (2938 # 100000); (3354 # 100000); (3761 # 100000); (4159 # 100000)]);
    ("alpha", [(5628 # 1000000000); (7437 # 1000000000); (1094 # 100000000); (1513 # 100000000); (1989 # 100000000); (2516 # 100000000); (3085 # 100000000); (3688 # 100000000); (4325 # 100000000)]);
    ("Pr", [(795 # 1000); (78 # 100); (764 # 1000); (749 # 1000); (738 # 1000); (73 # 100); (725 # 1000); (725 # 1000); (724 # 1000)])]);
   (** data/dataset-carbon-monoxide-lienhard2018.csv *)
   ("dataset-carbon-monoxide-lienhard2018.csv", mkms "Carbon Monoxide" [
    ("T", [(250 # 1); (300 # 1); (350 # 1); (400 # 1); (450 # 1); (500 # 1); (600 # 1); (700 # 1); (800 # 1); (900 # 1); (1000 # 1)]);
    ("rho", [(1367 # 1000); (1138 # 1000); (975 # 1000); (853 # 1000); (758 # 1000); (682 # 1000); (5687 # 10000); (4874 # 10000); (4265 # 10000); (3791 # 10000); (3412 # 10000)]);
    ("Cp", [(1042 # 1); (1040 # 1); (1040 # 1); (1039 # 1); (1039 # 1); (1040 # 1); (1041 # 1); (1043 # 1); (1046 # 1); (1049 # 1); (1052 # 1)]);
    ("mu", [(154 # 10000000); (177 # 10000000); (199 # 10000000); (219 # 10000000); (238 # 10000000); (255 # 10000000); (289 # 10000000); (32 # 1000000); (349 # 10000000); (377 # 10000000); (404 # 10000000)]);
    ("nu", [(113 # 10000000); (156 # 10000000); (204 # 10000000); (256 # 10000000); (313 # 10000000); (374 # 10000000); (508 # 10000000); (656 # 10000000); (818 # 10000000); (994 # 10000000); (118 # 1000000)]);
    ("k", [(2306 # 100000); (2656 # 100000); (2981 # 100000); (3285 # 100000); (3571 # 100000); (3844 # 100000); (4357 # 100000); (4838 # 100000); (5297 # 100000); (5738 # 100000); (6164 # 100000)]);
    ("alpha", [(162 # 10000000); (224 # 10000000); (294 # 10000000); (37 # 1000000); (453 # 10000000); (542 # 10000000); (736 # 10000000); (952 # 10000000); (119 # 1000000); (144 # 1000000); (172 # 1000000)]);
    ("Pr", [(697 # 1000); (694 # 1000); (693 # 1000); (692 # 1000); (691 # 1000); (691 # 1000); (69 # 100); (689 # 1000); (689 # 1000); (689 # 1000); (689 # 1000)])]);
   (** data/dataset-nitrogen-lienhard2018.csv *)
   ("dataset-nitrogen-lienhard2018.csv", mkms "Nitrogen" [
    ("T", [(100 # 1); (200 # 1); (300 # 1); (400 # 1); (500 # 1); (600 # 1); (700 # 1); (800 # 1); (900 # 1); (1000 # 1); (1100 # 1); (1200 # 1); (1400 # 1); (1600 # 1)]);
    ("rho", [(3484 # 1000); (1711 # 1000); (1138 # 1000); (8533 # 10000); (6826 # 10000); (5688 # 10000); (4876 # 10000); (4266 # 10000); (3792 # 10000); (3413 # 10000); (3103 # 10000); (2844 # 10000); (2438 # 10000); (2133 # 10000)]);
    ("Cp", [(1072 # 1); (1043 # 1); (1041 # 1); (1044 # 1); (1055 # 1); (1074 # 1); (1096 # 1); (1120 # 1); (1143 # 1); (1165 # 1); (1184 # 1); (1201 # 1); (1229 # 1); (1250 # 1)]);
    ("mu", [(68 # 10000000); (129 # 10000000); (18 # 1000000); (222 # 10000000); (261 # 10000000); (295 # 10000000); (328 # 10000000); (358 # 10000000); (387 # 10000000); (415 # 10000000); (442 # 10000000); (467 # 10000000); (517 # 10000000); (563 # 10000000)]);
    ("nu", [(195 # 100000000); (754 # 100000000); (158 # 10000000); (26 # 1000000); (382 # 10000000); (519 # 10000000); (673 # 10000000); (839 # 10000000); (102 # 1000000); (122 # 1000000); (142 # 1000000); (164 # 1000000); (212 # 1000000); (264 # 1000000)]);
    ("k", [(988 # 100000); (187 # 10000); (26 # 1000); (326 # 10000); (388 # 10000); (448 # 10000); (508 # 10000); (567 # 10000); (624 # 10000); (68 # 1000); (735 # 10000); (788 # 10000); (889 # 10000); (984 # 10000)]);
    ("alpha", [(265 # 100000000); (105 # 10000000); (219 # 10000000); (366 # 10000000); (539 # 10000000); (733 # 10000000); (951 # 10000000); (119 # 1000000); (144 # 1000000); (171 # 1000000); (2 # 10000); (231 # 1000000); (297 # 1000000); (369 # 1000000)]);
    ("Pr", [(738 # 1000); (72 # 100); (721 # 1000); (711 # 1000); (709 # 1000); (708 # 1000); (708 # 1000); (707 # 1000); (709 # 1000); (711 # 1000); (712 # 1000); (712 # 1000); (715 # 1000); (715 # 1000)])]);
   (** data/dataset-oxygen-lienhard2018.csv *)
   ("dataset-oxygen-lienhard2018.csv", mkms "Oxygen" [
    ("T", [(100 # 1); (150 # 1); (200 # 1); (250 # 1); (300 # 1); (350 # 1); (400 # 1); (450 # 1); (500 # 1); (600 # 1); (700 # 1); (800 # 1); (900 # 1); (1000 # 1)]);
    ("rho", [(3995 # 1000); (2619 # 1000); (1956 # 1000); (1562 # 1000); (1301 # 1000); (1114 # 1000); (9749 # 10000); (8665 # 10000); (7798 # 10000); (6498 # 10000); (5569 # 10000); (4873 # 10000); (4332 # 10000); (3899 # 10000)]);
    ("Cp", [(9356 # 10); (9198 # 10); (9146 # 10); (915 # 1); (9199 # 10); (9291 # 10); (9417 # 10); (9564 # 10); (9722 # 10); (1003 # 1); (1031 # 1); (1054 # 1); (1073 # 1); (1089 # 1)]);
    ("mu", [(738 # 100000000); (113 # 10000000); (147 # 10000000); (179 # 10000000); (207 # 10000000); (234 # 10000000); (259 # 10000000); (283 # 10000000); (305 # 10000000); (347 # 10000000); (386 # 10000000); (423 # 10000000); (457 # 10000000); (491 # 10000000)]);
    ("nu", [(185 # 100000000); (431 # 100000000); (754 # 100000000); (1145 # 100000000); (1595 # 100000000); (2101 # 100000000); (2657 # 100000000); (3261 # 100000000); (3911 # 100000000); (534 # 10000000); (693 # 10000000); (8673 # 100000000); (1056 # 10000000); (1259 # 10000000)]);
    ("k", [(93 # 10000); (1415 # 100000); (1848 # 100000); (2244 # 100000); (2615 # 100000); (2974 # 100000); (3324 # 100000); (367 # 10000); (401 # 10000); (4673 # 100000); (5309 # 100000); (5915 # 100000); (6493 # 100000); (7046 # 100000)]);
    ("alpha", [(249 # 100000000); (587 # 100000000); (103 # 10000000); (157 # 10000000); (219 # 10000000); (287 # 10000000); (362 # 10000000); (443 # 10000000); (529 # 10000000); (717 # 10000000); (924 # 10000000); (115 # 1000000); (14 # 100000); (166 # 1000000)]);
    ("Pr", [(743 # 1000); (733 # 1000); (73 # 100); (729 # 1000); (73 # 100); (731 # 1000); (734 # 1000); (737 # 1000); (739 # 1000); (745 # 1000); (75 # 100); (753 # 1000); (757 # 1000); (759 # 1000)])]);
   (** data/dataset-water-lienhard2015.csv *)
   ("dataset-water-lienhard2015.csv", mkms "Water" [
    ("T", [(27316 # 100); (275 # 1); (280 # 1); (285 # 1); (290 # 1); (295 # 1); (300 # 1); (305 # 1); (310 # 1); (320 # 1); (340 # 1); (360 # 1); (37315 # 100); (400 # 1); (420 # 1); (440 # 1); (460 # 1); (480 # 1); (500 # 1); (520 # 1); (540 # 1); (560 # 1); (580 # 1); (600 # 1); (620 # 1)]);
    ("rho", [(9998 # 10); (9999 # 10); (9999 # 10); (9995 # 10); (9988 # 10); (9978 # 10); (9965 # 10); (995 # 1); (9933 # 10); (9893 # 10); (9795 # 10); (9674 # 10); (9583 # 10); (9375 # 10); (9199 # 10); (9005 # 10); (8795 # 10); (8565 # 10); (8313 # 10); (8036 # 10); (7728 # 10); (738 # 1); (6976 # 10); (6494 # 10); (5869 # 10)]);
    ("Cp", [(4220 # 1); (4214 # 1); (4201 # 1); (4193 # 1); (4187 # 1); (4183 # 1); (4181 # 1); (4180 # 1); (4179 # 1); (4181 # 1); (4189 # 1); (4202 # 1); (4216 # 1); (4256 # 1); (4299 # 1); (4357 # 1); (4433 # 1); (4533 # 1); (4664 # 1); (4838 # 1); (5077 # 1); (5423 # 1); (5969 # 1); (6953 # 1); (9354 # 1)]);
    ("k", [(561 # 1000); (5645 # 10000); (574 # 1000); (5835 # 10000); (5927 # 10000); (6017 # 10000); (6103 # 10000); (6184 # 10000); (626 # 1000); (6396 # 10000); (6605 # 10000); (6737 # 10000); (6791 # 10000); (6836 # 10000); (6825 # 10000); (678 # 1000); (6702 # 10000); (659 # 1000); (6439 # 10000); (6246 # 10000); (6001 # 10000); (5701 # 10000); (5346 # 10000); (4953 # 10000); (4541 # 10000)]);
    ("alpha", [(133 # 1000000000); (134 # 1000000000); (137 # 1000000000); (139 # 1000000000); (142 # 1000000000); (144 # 1000000000); (147 # 1000000000); (149 # 1000000000); (151 # 1000000000); (155 # 1000000000); (161 # 1000000000); (166 # 1000000000); (168 # 1000000000); (171 # 1000000000); (173 # 1000000000); (173 # 1000000000); (172 # 1000000000); (17 # 100000000); (166 # 1000000000); (161 # 1000000000); (153 # 1000000000); (143 # 1000000000); (128 # 1000000000); (11 # 100000000); (827 # 10000000000)]);
    ("nu", [(179 # 100000000); (1682 # 1000000000); (1434 # 1000000000); (124 # 100000000); (1085 # 1000000000); (96 # 100000000); (857 # 1000000000); (771 # 1000000000); (698 # 1000000000); (583 # 1000000000); (431 # 1000000000); (337 # 1000000000); (294 # 1000000000); (233 # 1000000000); (203 # 1000000000); (181 # 1000000000); (164 # 1000000000); (151 # 1000000000); (142 # 1000000000); (134 # 1000000000); (128 # 1000000000); (123 # 1000000000); (12 # 100000000); (117 # 1000000000); (115 # 1000000000)]);
    ("Pr", [(1347 # 100); (1255 # 100); (1063 # 100); (891 # 100); (766 # 100); (666 # 100); (585 # 100); (518 # 100); (463 # 100); (377 # 100); (268 # 100); (203 # 100); (175 # 100); (136 # 100); (118 # 100); (105 # 100); (955 # 1000); (892 # 1000); (853 # 1000); (833 # 1000); (835 # 1000); (864 # 1000); (931 # 1000); (106 # 100); (139 # 100)]);
    ("beta", [(- 68 # 1000000); (- 355 # 10000000); (436 # 10000000); (112 # 1000000); (172 # 1000000); (226 # 1000000); (275 # 1000000); (319 # 1000000); (361 # 1000000); (436 # 1000000); (565 # 1000000); (679 # 1000000); (751 # 1000000); (895 # 1000000); (1008 # 1000000); (1132 # 1000000); (1273 # 1000000); (144 # 100000); (1645 # 1000000); (1909 # 1000000); (2266 # 1000000); (2783 # 1000000); (3607 # 1000000); (5141 # 1000000); (9092 # 1000000)]);
    ("mu", [(179 # 100000); (168 # 100000); (143 # 100000); (124 # 100000); (108 # 100000); (958 # 1000000); (854 # 1000000); (767 # 1000000); (693 # 1000000); (577 # 1000000); (422 # 1000000); (326 # 1000000); (282 # 1000000); (218 # 1000000); (187 # 1000000); (163 # 1000000); (144 # 1000000); (129 # 1000000); (118 # 1000000); (108 # 1000000); (989 # 10000000); (908 # 10000000); (837 # 10000000); (76 # 1000000); (675 # 10000000)])]);
   (** data/dataset-water-vapour-lienhard2018.csv *)
   ("dataset-water-vapour-lienhard2018.csv", mkms "Water Vapour" [
    ("T", [(37315 # 100); (39315 # 100); (41315 # 100); (43315 # 100); (45315 # 100); (47315 # 100); (49315 # 100); (51315 # 100); (53315 # 100); (55315 # 100); (57315 # 100); (59315 # 100); (61315 # 100); (67315 # 100); (77315 # 100); (87315 # 100); (97315 # 100); (107315 # 100)]);
    ("rho", [(5976 # 10000); (5652 # 10000); (5365 # 10000); (5108 # 10000); (4875 # 10000); (4665 # 10000); (4472 # 10000); (4295 # 10000); (4131 # 10000); (398 # 1000); (384 # 1000); (3709 # 10000); (3587 # 10000); (3266 # 10000); (2842 # 10000); (2516 # 10000); (2257 # 10000); (2046 # 10000)]);
    ("Cp", [(2080 # 1); (2021 # 1); (1994 # 1); (1980 # 1); (1976 # 1); (1976 # 1); (1980 # 1); (1986 # 1); (1994 # 1); (2003 # 1); (2013 # 1); (2023 # 1); (2034 # 1); (2070 # 1); (2134 # 1); (2203 # 1); (2273 # 1); (2343 # 1)]);
    ("mu", [(1228 # 100000000); (1304 # 100000000); (1381 # 100000000); (1459 # 100000000); (1538 # 100000000); (1618 # 100000000); (17 # 1000000); (1781 # 100000000); (1863 # 100000000); (1946 # 100000000); (2029 # 100000000); (2112 # 100000000); (2195 # 100000000); (2445 # 100000000); (2857 # 100000000); (3262 # 100000000); (3655 # 100000000); (4038 # 100000000)]);
    ("nu", [(2055 # 100000000); (2307 # 100000000); (2574 # 100000000); (2856 # 100000000); (3155 # 100000000); (3468 # 100000000); (3801 # 100000000); (4147 # 100000000); (451 # 10000000); (4889 # 100000000); (5284 # 100000000); (5694 # 100000000); (6119 # 100000000); (7486 # 100000000); (1005 # 10000000); (1297 # 10000000); (1619 # 10000000); (1974 # 10000000)]);
    ("k", [(2509 # 100000); (265 # 10000); (2805 # 100000); (297 # 10000); (3145 # 100000); (3328 # 100000); (3519 # 100000); (3716 # 100000); (3919 # 100000); (4128 # 100000); (4341 # 100000); (456 # 10000); (4784 # 100000); (5476 # 100000); (6698 # 100000); (799 # 10000); (9338 # 100000); (1073 # 10000)]);
    ("alpha", [(2019 # 100000000); (232 # 10000000); (2622 # 100000000); (2937 # 100000000); (3265 # 100000000); (361 # 10000000); (3974 # 100000000); (4357 # 100000000); (4758 # 100000000); (5178 # 100000000); (5616 # 100000000); (6077 # 100000000); (6554 # 100000000); (81 # 1000000); (1104 # 10000000); (1442 # 10000000); (182 # 1000000); (2238 # 10000000)]);
    ("Pr", [(1018 # 1000); (994 # 1000); (982 # 1000); (973 # 1000); (966 # 1000); (961 # 1000); (956 # 1000); (952 # 1000); (948 # 1000); (944 # 1000); (941 # 1000); (937 # 1000); (934 # 1000); (924 # 1000); (91 # 100); (899 # 1000); (89 # 100); (882 # 1000)])])
  ].
