(** The periodic table used by the stoichiometry functions
    (auxi/tools/chemistry/stoichiometry.py). *)
From Verif Require Import Prelude.
Local Open Scope string_scope.
Local Open Scope Z_scope.

(** stoichiometry.py:25-54, class Element.  The molar mass literal is kept as
    the exact decimal that is written in the source. *)
Record element := mkel { el_period : Z; el_group : Z; el_number : Z; el_symbol : string; el_mass_q : Q }.
Definition el_mass (e : element) : Qc := Q2Qc (el_mass_q e).

(** stoichiometry.py:405-538, _element_dictionary_.  Every key of the
    dictionary equals the symbol of its element, so the dictionary is kept as
    the list of its elements and looked up by symbol. *)
Definition element_dictionary : list element :=
  [
   mkel 1 1 1 "H" (100794 # 100000);
   mkel 1 18 2 "He" (4002602 # 1000000);
   mkel 2 1 3 "Li" (6941 # 1000);
   mkel 2 2 4 "Be" (9012182 # 1000000);
   mkel 2 13 5 "B" (10811 # 1000);
   mkel 2 14 6 "C" (120107 # 10000);
   mkel 2 15 7 "N" (1400674 # 100000);
   mkel 2 16 8 "O" (159994 # 10000);
   mkel 2 17 9 "F" (189984032 # 10000000);
   mkel 2 18 10 "Ne" (201797 # 10000);
   mkel 3 1 11 "Na" (2298977 # 100000);
   mkel 3 2 12 "Mg" (24305 # 1000);
   mkel 3 13 13 "Al" (26981538 # 1000000);
   mkel 3 14 14 "Si" (280855 # 10000);
   mkel 3 15 15 "P" (30973762 # 1000000);
   mkel 3 16 16 "S" (32066 # 1000);
   mkel 3 17 17 "Cl" (354527 # 10000);
   mkel 3 18 18 "Ar" (39948 # 1000);
   mkel 4 1 19 "K" (390983 # 10000);
   mkel 4 2 20 "Ca" (40078 # 1000);
   mkel 4 3 21 "Sc" (4495591 # 100000);
   mkel 4 4 22 "Ti" (47867 # 1000);
   mkel 4 5 23 "V" (509415 # 10000);
   mkel 4 6 24 "Cr" (519961 # 10000);
   mkel 4 7 25 "Mn" (54938049 # 1000000);
   mkel 4 8 26 "Fe" (55845 # 1000);
   mkel 4 9 27 "Co" (589332 # 10000);
   mkel 4 10 28 "Ni" (586934 # 10000);
   mkel 4 11 29 "Cu" (63546 # 1000);
   mkel 4 12 30 "Zn" (6539 # 100);
   mkel 4 13 31 "Ga" (69723 # 1000);
   mkel 4 14 32 "Ge" (7261 # 100);
   mkel 4 15 33 "As" (749216 # 10000);
   mkel 4 16 34 "Se" (7896 # 100);
   mkel 4 17 35 "Br" (79904 # 1000);
   mkel 4 18 36 "Kr" (838 # 10);
   mkel 5 1 37 "Rb" (854678 # 10000);
   mkel 5 2 38 "Sr" (8762 # 100);
   mkel 5 3 39 "Y" (8890585 # 100000);
   mkel 5 4 40 "Zr" (91224 # 1000);
   mkel 5 5 41 "Nb" (9290638 # 100000);
   mkel 5 6 42 "Mo" (9594 # 100);
   mkel 5 7 43 "Tc" (98 # 1);
   mkel 5 8 44 "Ru" (10107 # 100);
   mkel 5 9 45 "Rh" (1029055 # 10000);
   mkel 5 10 46 "Pd" (10642 # 100);
   mkel 5 11 47 "Ag" (1078682 # 10000);
   mkel 5 12 48 "Cd" (112411 # 1000);
   mkel 5 13 49 "In" (114818 # 1000);
   mkel 5 14 50 "Sn" (11871 # 100);
   mkel 5 15 51 "Sb" (12176 # 100);
   mkel 5 16 52 "Te" (1276 # 10);
   mkel 5 17 53 "I" (12690447 # 100000);
   mkel 5 18 54 "Xe" (13129 # 100);
   mkel 6 1 55 "Cs" (13290545 # 100000);
   mkel 6 2 56 "Ba" (137327 # 1000);
   mkel 6 0 57 "La" (1389055 # 10000);
   mkel 6 0 58 "Ce" (140116 # 1000);
   mkel 6 0 59 "Pr" (14090765 # 100000);
   mkel 6 0 60 "Nd" (14424 # 100);
   mkel 6 0 61 "Pm" (145 # 1);
   mkel 6 0 62 "Sm" (15036 # 100);
   mkel 6 0 63 "Eu" (151964 # 1000);
   mkel 6 0 64 "Gd" (15725 # 100);
   mkel 6 0 65 "Tb" (15892534 # 100000);
   mkel 6 0 66 "Dy" (1625 # 10);
   mkel 6 0 67 "Ho" (16493032 # 100000);
   mkel 6 0 68 "Er" (16726 # 100);
   mkel 6 0 69 "Tm" (16893421 # 100000);
   mkel 6 0 70 "Yb" (17304 # 100);
   mkel 6 0 71 "Lu" (174967 # 1000);
   mkel 6 4 72 "Hf" (17849 # 100);
   mkel 6 5 73 "Ta" (1809479 # 10000);
   mkel 6 6 74 "W" (18384 # 100);
   mkel 6 7 75 "Re" (186207 # 1000);
   mkel 6 8 76 "Os" (19023 # 100);
   mkel 6 9 77 "Ir" (192217 # 1000);
   mkel 6 10 78 "Pt" (195078 # 1000);
   mkel 6 11 79 "Au" (19696655 # 100000);
   mkel 6 12 80 "Hg" (20059 # 100);
   mkel 6 13 81 "Tl" (2043833 # 10000);
   mkel 6 14 82 "Pb" (2072 # 10);
   mkel 6 15 83 "Bi" (20898038 # 100000);
   mkel 6 16 84 "Po" (210 # 1);
   mkel 6 17 85 "At" (210 # 1);
   mkel 6 18 86 "Rn" (222 # 1);
   mkel 7 1 87 "Fr" (223 # 1);
   mkel 7 2 88 "Ra" (226 # 1);
   mkel 7 0 89 "Ac" (227 # 1);
   mkel 7 0 90 "Th" (2320381 # 10000);
   mkel 7 0 91 "Pa" (23103588 # 100000);
   mkel 7 0 92 "U" (2380289 # 10000);
   mkel 7 0 93 "Np" (237 # 1);
   mkel 7 0 94 "Pu" (244 # 1);
   mkel 7 0 95 "Am" (243 # 1);
   mkel 7 0 96 "Cm" (247 # 1);
   mkel 7 0 97 "Bk" (247 # 1);
   mkel 7 0 98 "Cf" (251 # 1);
   mkel 7 0 99 "Es" (252 # 1);
   mkel 7 0 100 "Fm" (257 # 1);
   mkel 7 0 101 "Md" (258 # 1);
   mkel 7 0 102 "No" (259 # 1);
   mkel 7 0 103 "Lr" (262 # 1);
   mkel 7 4 104 "Rf" (261 # 1);
   mkel 7 5 105 "Db" (262 # 1);
   mkel 7 6 106 "Sg" (266 # 1);
   mkel 7 7 107 "Bh" (264 # 1);
   mkel 7 8 108 "Hs" (269 # 1);
   mkel 7 9 109 "Mt" (268 # 1);
   mkel 7 10 110 "Ds" (269 # 1);
   mkel 7 11 111 "Rg" (272 # 1)
  ].

(** stoichiometry.py:155 and 115, _element_dictionary_[...]. *)
Definition find_element (s : string) : option element :=
  find (fun e => String.eqb (el_symbol e) s) element_dictionary.
