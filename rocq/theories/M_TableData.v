(** GENERATED by tools/gen_tables.py from /repo/matslise/matslise/matslise_formulas.cpp:161-323, do not edit.
    Each 2x2 entry is the list of the rows r0, r1, ... of the nested form r0 + h*(r1 + h*(...)); a row is a
    list of terms (numerator, denominator, indices of the v's), in the order of the source.  Entry order:
    (0,0), (0,1), (1,0), (1,1), as in Eigen's comma initialiser. *)
From Coq Require Import ZArith List.
Import ListNotations.
(** (Scalar(num)/Scalar(den)) * product of the v's *)
Inductive tterm := Mo (num : Z) (den : positive) (vars : list nat).
Definition hentry : Type := list (list tterm).

(** matslise_formulas.cpp: tDelta(0, 0..16) *)
Definition tdelta_row0 : list (list hentry) := [
 [[[Mo 1 1 []]];
  [];
  [];
  [[Mo 1 1 []]]];
 [[];
  [];
  [[]; [Mo (-1) 2 [1]]; [Mo 1 2 [2]]; [Mo (-1) 2 [3]]; [Mo 1 2 [4]]; [Mo (-1) 2 [5]]; [Mo 1 2 [6]]; [Mo (-1) 2 [7]]; [Mo 1 2 [8]]; [Mo (-1) 2 [9]]; [Mo 1 2 [10]]; [Mo (-1) 2 [11]]; [Mo 1 2 [12]]; [Mo (-1) 2 [13]]];
  []];
 [[];
  [];
  [[Mo 1 2 [1]]; [Mo (-3) 2 [2]]; [Mo 3 1 [3]]; [Mo (-5) 1 [4]]; [Mo 15 2 [5]]; [Mo (-21) 2 [6]]; [Mo 14 1 [7]]; [Mo (-18) 1 [8]]; [Mo 45 2 [9]]; [Mo (-55) 2 [10]]; [Mo 33 1 [11]]; [Mo (-39) 1 [12]]; [Mo 91 2 [13]]];
  []];
 [[];
  [];
  [[Mo 1 1 [2]]; [Mo (-5) 1 [3]]; [Mo 15 1 [4]]; [Mo (-35) 1 [5]]; [Mo 70 1 [6]]; [Mo (-126) 1 [7]]; [Mo 210 1 [8]]; [Mo (-330) 1 [9]]; [Mo 495 1 [10]]; [Mo (-715) 1 [11]]; [Mo 1001 1 [12]]; [Mo (-1365) 1 [13]]];
  []];
 [[];
  [];
  [[Mo 5 2 [3]]; [Mo (-35) 2 [4]]; [Mo 70 1 [5]]; [Mo (-210) 1 [6]]; [Mo 525 1 [7]]; [Mo (-1155) 1 [8]]; [Mo 2310 1 [9]]; [Mo (-4290) 1 [10]]; [Mo 15015 2 [11]]; [Mo (-25025) 2 [12]]; [Mo 20020 1 [13]]];
  []];
 [[];
  [];
  [[Mo 7 1 [4]]; [Mo (-63) 1 [5]]; [Mo 315 1 [6]]; [Mo (-1155) 1 [7]]; [Mo 3465 1 [8]]; [Mo (-9009) 1 [9]]; [Mo 21021 1 [10]]; [Mo (-45045) 1 [11]]; [Mo 90090 1 [12]]; [Mo (-170170) 1 [13]]];
  []];
 [[];
  [];
  [[Mo 21 1 [5]]; [Mo (-231) 1 [6]]; [Mo 1386 1 [7]]; [Mo (-6006) 1 [8]]; [Mo 21021 1 [9]]; [Mo (-63063) 1 [10]]; [Mo 168168 1 [11]]; [Mo (-408408) 1 [12]]; [Mo 918918 1 [13]]];
  []];
 [[];
  [];
  [[Mo 66 1 [6]]; [Mo (-858) 1 [7]]; [Mo 6006 1 [8]]; [Mo (-30030) 1 [9]]; [Mo 120120 1 [10]]; [Mo (-408408) 1 [11]]; [Mo 1225224 1 [12]]; [Mo (-3325608) 1 [13]]];
  []];
 [[];
  [];
  [[Mo 429 2 [7]]; [Mo (-6435) 2 [8]]; [Mo 25740 1 [9]]; [Mo (-145860) 1 [10]]; [Mo 656370 1 [11]]; [Mo (-2494206) 1 [12]]; [Mo 8314020 1 [13]]];
  []];
 [[];
  [];
  [[Mo 715 1 [8]]; [Mo (-12155) 1 [9]]; [Mo 109395 1 [10]]; [Mo (-692835) 1 [11]]; [Mo 3464175 1 [12]]; [Mo (-14549535) 1 [13]]];
  []];
 [[];
  [];
  [[Mo 2431 1 [9]]; [Mo (-46189) 1 [10]]; [Mo 461890 1 [11]]; [Mo (-3233230) 1 [12]]; [Mo 17782765 1 [13]]];
  []];
 [[];
  [];
  [[Mo 8398 1 [10]]; [Mo (-176358) 1 [11]]; [Mo 1939938 1 [12]]; [Mo (-14872858) 1 [13]]];
  []];
 [[];
  [];
  [[Mo 29393 1 [11]]; [Mo (-676039) 1 [12]]; [Mo 8112468 1 [13]]];
  []];
 [[];
  [];
  [[Mo 104006 1 [12]]; [Mo (-2600150) 1 [13]]];
  []];
 [[];
  [];
  [[Mo 371450 1 [13]]];
  []];
 [[];
  [];
  [];
  []];
 [[];
  [];
  [];
  []]].
(** matslise_formulas.cpp: tDelta(1, 0..16) *)
Definition tdelta_row1 : list (list hentry) := [
 [[];
  [];
  [];
  []];
 [[];
  [[Mo 1 1 []]];
  [[]; [Mo (-1) 2 [1]]; [Mo 1 2 [2]]; [Mo (-1) 2 [3]]; [Mo 1 2 [4]]; [Mo (-1) 2 [5]]; [Mo 1 2 [6]]; [Mo (-1) 2 [7]]; [Mo 1 2 [8]]; [Mo (-1) 2 [9]]; [Mo 1 2 [10]]; [Mo (-1) 2 [11]]; [Mo 1 2 [12]]; [Mo (-1) 2 [13]]];
  []];
 [[[]; [Mo (-1) 2 [1]]; [Mo 1 2 [2]]; [Mo (-1) 2 [3]]; [Mo 1 2 [4]]; [Mo (-1) 2 [5]]; [Mo 1 2 [6]]; [Mo (-1) 2 [7]]; [Mo 1 2 [8]]; [Mo (-1) 2 [9]]; [Mo 1 2 [10]]; [Mo (-1) 2 [11]]; [Mo 1 2 [12]]; [Mo (-1) 2 [13]]];
  [];
  [[Mo 1 2 [1]]; [Mo (-3) 2 [2]]; [Mo 3 1 [3]]; [Mo (-5) 1 [4]]; [Mo 15 2 [5]]; [Mo (-21) 2 [6]]; [Mo 14 1 [7]]; [Mo (-18) 1 [8]]; [Mo 45 2 [9]]; [Mo (-55) 2 [10]]; [Mo 33 1 [11]]; [Mo (-39) 1 [12]]; [Mo 91 2 [13]]];
  [[]; [Mo (-1) 2 [1]]; [Mo 1 2 [2]]; [Mo (-1) 2 [3]]; [Mo 1 2 [4]]; [Mo (-1) 2 [5]]; [Mo 1 2 [6]]; [Mo (-1) 2 [7]]; [Mo 1 2 [8]]; [Mo (-1) 2 [9]]; [Mo 1 2 [10]]; [Mo (-1) 2 [11]]; [Mo 1 2 [12]]; [Mo (-1) 2 [13]]]];
 [[[Mo 1 2 [1]]; [Mo (-3) 2 [2]]; [Mo 3 1 [3]]; [Mo (-5) 1 [4]]; [Mo 15 2 [5]]; [Mo (-21) 2 [6]]; [Mo 14 1 [7]]; [Mo (-18) 1 [8]]; [Mo 45 2 [9]]; [Mo (-55) 2 [10]]; [Mo 33 1 [11]]; [Mo (-39) 1 [12]]; [Mo 91 2 [13]]];
  [];
  [[Mo 3 2 [2]]; [Mo (-15) 2 [3]]; [Mo 1 8 [1; 1]; Mo 45 2 [4]]; [Mo (-1) 4 [1; 2]; Mo (-105) 2 [5]]; [Mo 1 8 [2; 2]; Mo 1 4 [1; 3]; Mo 105 1 [6]]; [Mo (-1) 4 [2; 3]; Mo (-1) 4 [1; 4]; Mo (-189) 1 [7]]; [Mo 1 8 [3; 3]; Mo 1 4 [2; 4]; Mo 1 4 [1; 5]; Mo 315 1 [8]]; [Mo (-1) 4 [3; 4]; Mo (-1) 4 [2; 5]; Mo (-1) 4 [1; 6]; Mo (-495) 1 [9]]; [Mo 1 8 [4; 4]; Mo 1 4 [3; 5]; Mo 1 4 [2; 6]; Mo 1 4 [1; 7]; Mo 1485 2 [10]]; [Mo (-1) 4 [4; 5]; Mo (-1) 4 [3; 6]; Mo (-1) 4 [2; 7]; Mo (-1) 4 [1; 8]; Mo (-2145) 2 [11]]; [Mo 1 8 [5; 5]; Mo 1 4 [4; 6]; Mo 1 4 [3; 7]; Mo 1 4 [2; 8]; Mo 1 4 [1; 9]; Mo 3003 2 [12]]; [Mo (-1) 4 [5; 6]; Mo (-1) 4 [4; 7]; Mo (-1) 4 [3; 8]; Mo (-1) 4 [2; 9]; Mo (-1) 4 [1; 10]; Mo (-4095) 2 [13]]; [Mo 1 8 [6; 6]; Mo 1 4 [5; 7]; Mo 1 4 [4; 8]; Mo 1 4 [3; 9]; Mo 1 4 [2; 10]; Mo 1 4 [1; 11]]; [Mo (-1) 4 [6; 7]; Mo (-1) 4 [5; 8]; Mo (-1) 4 [4; 9]; Mo (-1) 4 [3; 10]; Mo (-1) 4 [2; 11]; Mo (-1) 4 [1; 12]]];
  [[Mo 1 2 [1]]; [Mo (-3) 2 [2]]; [Mo 3 1 [3]]; [Mo (-5) 1 [4]]; [Mo 15 2 [5]]; [Mo (-21) 2 [6]]; [Mo 14 1 [7]]; [Mo (-18) 1 [8]]; [Mo 45 2 [9]]; [Mo (-55) 2 [10]]; [Mo 33 1 [11]]; [Mo (-39) 1 [12]]; [Mo 91 2 [13]]]];
 [[[Mo 1 1 [2]]; [Mo (-5) 1 [3]]; [Mo 15 1 [4]]; [Mo (-35) 1 [5]]; [Mo 70 1 [6]]; [Mo (-126) 1 [7]]; [Mo 210 1 [8]]; [Mo (-330) 1 [9]]; [Mo 495 1 [10]]; [Mo (-715) 1 [11]]; [Mo 1001 1 [12]]; [Mo (-1365) 1 [13]]];
  [];
  [[Mo 5 1 [3]]; [Mo (-1) 4 [1; 1]; Mo (-35) 1 [4]]; [Mo 1 1 [1; 2]; Mo 140 1 [5]]; [Mo (-3) 4 [2; 2]; Mo (-7) 4 [1; 3]; Mo (-420) 1 [6]]; [Mo 9 4 [2; 3]; Mo 11 4 [1; 4]; Mo 1050 1 [7]]; [Mo (-3) 2 [3; 3]; Mo (-13) 4 [2; 4]; Mo (-4) 1 [1; 5]; Mo (-2310) 1 [8]]; [Mo 4 1 [3; 4]; Mo 9 2 [2; 5]; Mo 11 2 [1; 6]; Mo 4620 1 [9]]; [Mo (-5) 2 [4; 4]; Mo (-21) 4 [3; 5]; Mo (-6) 1 [2; 6]; Mo (-29) 4 [1; 7]; Mo (-8580) 1 [10]]; [Mo 25 4 [4; 5]; Mo 27 4 [3; 6]; Mo 31 4 [2; 7]; Mo 37 4 [1; 8]; Mo 15015 1 [11]]; [Mo (-15) 4 [5; 5]; Mo (-31) 4 [4; 6]; Mo (-17) 2 [3; 7]; Mo (-39) 4 [2; 8]; Mo (-23) 2 [1; 9]; Mo (-25025) 1 [12]]; [Mo 9 1 [5; 6]; Mo 19 2 [4; 7]; Mo 21 2 [3; 8]; Mo 12 1 [2; 9]; Mo 14 1 [1; 10]; Mo 40040 1 [13]]; [Mo (-21) 4 [6; 6]; Mo (-43) 4 [5; 7]; Mo (-23) 2 [4; 8]; Mo (-51) 4 [3; 9]; Mo (-29) 2 [2; 10]; Mo (-67) 4 [1; 11]]; [Mo 49 4 [6; 7]; Mo 51 4 [5; 8]; Mo 55 4 [4; 9]; Mo 61 4 [3; 10]; Mo 69 4 [2; 11]; Mo 79 4 [1; 12]]];
  [[Mo 1 1 [2]]; [Mo (-5) 1 [3]]; [Mo 15 1 [4]]; [Mo (-35) 1 [5]]; [Mo 70 1 [6]]; [Mo (-126) 1 [7]]; [Mo 210 1 [8]]; [Mo (-330) 1 [9]]; [Mo 495 1 [10]]; [Mo (-715) 1 [11]]; [Mo 1001 1 [12]]; [Mo (-1365) 1 [13]]]];
 [[[Mo 5 2 [3]]; [Mo (-35) 2 [4]]; [Mo 70 1 [5]]; [Mo (-210) 1 [6]]; [Mo 525 1 [7]]; [Mo (-1155) 1 [8]]; [Mo 2310 1 [9]]; [Mo (-4290) 1 [10]]; [Mo 15015 2 [11]]; [Mo (-25025) 2 [12]]; [Mo 20020 1 [13]]];
  [];
  [[Mo 1 8 [1; 1]; Mo 35 2 [4]]; [Mo (-5) 4 [1; 2]; Mo (-315) 2 [5]]; [Mo 13 8 [2; 2]; Mo 4 1 [1; 3]; Mo 1575 2 [6]]; [Mo (-15) 2 [2; 3]; Mo (-10) 1 [1; 4]; Mo (-5775) 2 [7]]; [Mo 7 1 [3; 3]; Mo 31 2 [2; 4]; Mo 85 4 [1; 5]; Mo 17325 2 [8]]; [Mo (-25) 1 [3; 4]; Mo (-117) 4 [2; 5]; Mo (-161) 4 [1; 6]; Mo (-45045) 2 [9]]; [Mo 20 1 [4; 4]; Mo 85 2 [3; 5]; Mo 205 4 [2; 6]; Mo 70 1 [1; 7]; Mo 105105 2 [10]]; [Mo (-125) 2 [4; 5]; Mo (-69) 1 [3; 6]; Mo (-169) 2 [2; 7]; Mo (-114) 1 [1; 8]; Mo (-225225) 2 [11]]; [Mo 365 8 [5; 5]; Mo 95 1 [4; 6]; Mo 215 2 [3; 7]; Mo 265 2 [2; 8]; Mo 705 4 [1; 9]; Mo 225225 1 [12]]; [Mo (-525) 4 [5; 6]; Mo (-281) 2 [4; 7]; Mo (-323) 2 [3; 8]; Mo (-797) 4 [2; 9]; Mo (-1045) 4 [1; 10]; Mo (-425425) 1 [13]]; [Mo 721 8 [6; 6]; Mo 371 2 [5; 7]; Mo 405 2 [4; 8]; Mo 235 1 [3; 9]; Mo 1157 4 [2; 10]; Mo 374 1 [1; 11]]; [Mo (-245) 1 [6; 7]; Mo (-515) 2 [5; 8]; Mo (-285) 1 [4; 9]; Mo (-665) 2 [3; 10]; Mo (-815) 2 [2; 11]; Mo (-520) 1 [1; 12]]];
  [[Mo 5 2 [3]]; [Mo (-35) 2 [4]]; [Mo 70 1 [5]]; [Mo (-210) 1 [6]]; [Mo 525 1 [7]]; [Mo (-1155) 1 [8]]; [Mo 2310 1 [9]]; [Mo (-4290) 1 [10]]; [Mo 15015 2 [11]]; [Mo (-25025) 2 [12]]; [Mo 20020 1 [13]]]];
 [[[Mo 7 1 [4]]; [Mo (-63) 1 [5]]; [Mo 315 1 [6]]; [Mo (-1155) 1 [7]]; [Mo 3465 1 [8]]; [Mo (-9009) 1 [9]]; [Mo 21021 1 [10]]; [Mo (-45045) 1 [11]]; [Mo 90090 1 [12]]; [Mo (-170170) 1 [13]]];
  [];
  [[Mo 1 2 [1; 2]; Mo 63 1 [5]]; [Mo (-3) 2 [2; 2]; Mo (-15) 4 [1; 3]; Mo (-693) 1 [6]]; [Mo 47 4 [2; 3]; Mo 65 4 [1; 4]; Mo 4158 1 [7]]; [Mo (-65) 4 [3; 3]; Mo (-145) 4 [2; 4]; Mo (-105) 2 [1; 5]; Mo (-18018) 1 [8]]; [Mo 80 1 [3; 4]; Mo 95 1 [2; 5]; Mo 140 1 [1; 6]; Mo 63063 1 [9]]; [Mo (-335) 4 [4; 4]; Mo (-715) 4 [3; 5]; Mo (-441) 2 [2; 6]; Mo (-651) 2 [1; 7]; Mo (-189189) 1 [10]]; [Mo 1325 4 [4; 5]; Mo 1475 4 [3; 6]; Mo 931 2 [2; 7]; Mo 1365 2 [1; 8]; Mo 504504 1 [11]]; [Mo (-595) 2 [5; 5]; Mo (-2485) 4 [4; 6]; Mo (-2847) 4 [3; 7]; Mo (-1821) 2 [2; 8]; Mo (-1320) 1 [1; 9]; Mo (-1225224) 1 [12]]; [Mo 2065 2 [5; 6]; Mo 4445 4 [4; 7]; Mo 5195 4 [3; 8]; Mo 3345 2 [2; 9]; Mo 4785 2 [1; 10]; Mo 2756754 1 [13]]; [Mo (-840) 1 [6; 6]; Mo (-3465) 2 [5; 7]; Mo (-7625) 4 [4; 8]; Mo (-9035) 4 [3; 9]; Mo (-2915) 1 [2; 10]; Mo (-16445) 4 [1; 11]]; [Mo 5341 2 [6; 7]; Mo 5635 2 [5; 8]; Mo 12605 4 [4; 9]; Mo 15075 4 [3; 10]; Mo 19437 4 [2; 11]; Mo 27027 4 [1; 12]]];
  [[Mo 7 1 [4]]; [Mo (-63) 1 [5]]; [Mo 315 1 [6]]; [Mo (-1155) 1 [7]]; [Mo 3465 1 [8]]; [Mo (-9009) 1 [9]]; [Mo 21021 1 [10]]; [Mo (-45045) 1 [11]]; [Mo 90090 1 [12]]; [Mo (-170170) 1 [13]]]];
 [[[Mo 21 1 [5]]; [Mo (-231) 1 [6]]; [Mo 1386 1 [7]]; [Mo (-6006) 1 [8]]; [Mo 21021 1 [9]]; [Mo (-63063) 1 [10]]; [Mo 168168 1 [11]]; [Mo (-408408) 1 [12]]; [Mo 918918 1 [13]]];
  [];
  [[Mo 1 2 [2; 2]; Mo 5 4 [1; 3]; Mo 231 1 [6]]; [Mo (-35) 4 [2; 3]; Mo (-49) 4 [1; 4]; Mo (-3003) 1 [7]]; [Mo 20 1 [3; 3]; Mo 179 4 [2; 4]; Mo 133 2 [1; 5]; Mo 21021 1 [8]]; [Mo (-287) 2 [3; 4]; Mo (-343) 2 [2; 5]; Mo (-525) 2 [1; 6]; Mo (-105105) 1 [9]]; [Mo 407 2 [4; 4]; Mo 1741 4 [3; 5]; Mo 1085 2 [2; 6]; Mo 840 1 [1; 7]; Mo 420420 1 [10]]; [Mo (-4165) 4 [4; 5]; Mo (-4655) 4 [3; 6]; Mo (-1491) 1 [2; 7]; Mo (-2310) 1 [1; 8]; Mo (-1429428) 1 [11]]; [Mo 1169 1 [5; 5]; Mo 9779 4 [4; 6]; Mo 5635 2 [3; 7]; Mo 3675 1 [2; 8]; Mo 11319 2 [1; 9]; Mo 4288284 1 [12]]; [Mo (-4949) 1 [5; 6]; Mo (-5341) 1 [4; 7]; Mo (-12585) 2 [3; 8]; Mo (-16599) 2 [2; 9]; Mo (-25311) 2 [1; 10]; Mo (-11639628) 1 [13]]; [Mo 9625 2 [6; 6]; Mo 19873 2 [5; 7]; Mo 10976 1 [4; 8]; Mo 52563 4 [3; 9]; Mo 34881 2 [2; 10]; Mo 105105 4 [1; 11]]; [Mo (-36015) 2 [6; 7]; Mo (-38073) 2 [5; 8]; Mo (-85607) 4 [4; 9]; Mo (-103697) 4 [3; 10]; Mo (-137995) 4 [2; 11]; Mo (-205205) 4 [1; 12]]];
  [[Mo 21 1 [5]]; [Mo (-231) 1 [6]]; [Mo 1386 1 [7]]; [Mo (-6006) 1 [8]]; [Mo 21021 1 [9]]; [Mo (-63063) 1 [10]]; [Mo 168168 1 [11]]; [Mo (-408408) 1 [12]]; [Mo 918918 1 [13]]]];
 [[[Mo 66 1 [6]]; [Mo (-858) 1 [7]]; [Mo 6006 1 [8]]; [Mo (-30030) 1 [9]]; [Mo 120120 1 [10]]; [Mo (-408408) 1 [11]]; [Mo 1225224 1 [12]]; [Mo (-3325608) 1 [13]]];
  [];
  [[Mo 5 2 [2; 3]; Mo 7 2 [1; 4]; Mo 858 1 [7]]; [Mo (-25) 2 [3; 3]; Mo (-28) 1 [2; 4]; Mo (-42) 1 [1; 5]; Mo (-12870) 1 [8]]; [Mo 146 1 [3; 4]; Mo 175 1 [2; 5]; Mo 273 1 [1; 6]; Mo 102960 1 [9]]; [Mo (-595) 2 [4; 4]; Mo (-637) 1 [3; 5]; Mo (-798) 1 [2; 6]; Mo (-2541) 2 [1; 7]; Mo (-583440) 1 [10]]; [Mo 4081 2 [4; 5]; Mo 4571 2 [3; 6]; Mo 5901 2 [2; 7]; Mo 9471 2 [1; 8]; Mo 2625480 1 [11]]; [Mo (-2933) 1 [5; 5]; Mo (-6139) 1 [4; 6]; Mo (-7098) 1 [3; 7]; Mo (-18711) 2 [2; 8]; Mo (-15015) 1 [1; 9]; Mo (-9976824) 1 [12]]; [Mo 15400 1 [5; 6]; Mo 16646 1 [4; 7]; Mo 19698 1 [3; 8]; Mo 26334 1 [2; 9]; Mo 42042 1 [1; 10]; Mo 33256080 1 [13]]; [Mo (-18123) 1 [6; 6]; Mo (-37443) 1 [5; 7]; Mo (-41454) 1 [4; 8]; Mo (-99825) 2 [3; 9]; Mo (-67353) 1 [2; 10]; Mo (-213213) 2 [1; 11]]; [Mo 80556 1 [6; 7]; Mo 85260 1 [5; 8]; Mo 96138 1 [4; 9]; Mo 117282 1 [3; 10]; Mo 159159 1 [2; 11]; Mo 249249 1 [1; 12]]];
  [[Mo 66 1 [6]]; [Mo (-858) 1 [7]]; [Mo 6006 1 [8]]; [Mo (-30030) 1 [9]]; [Mo 120120 1 [10]]; [Mo (-408408) 1 [11]]; [Mo 1225224 1 [12]]; [Mo (-3325608) 1 [13]]]];
 [[[Mo 429 2 [7]]; [Mo (-6435) 2 [8]]; [Mo 25740 1 [9]]; [Mo (-145860) 1 [10]]; [Mo 656370 1 [11]]; [Mo (-2494206) 1 [12]]; [Mo 8314020 1 [13]]];
  [];
  [[Mo 25 8 [3; 3]; Mo 7 1 [2; 4]; Mo 21 2 [1; 5]; Mo 6435 2 [8]]; [Mo (-315) 4 [3; 4]; Mo (-189) 2 [2; 5]; Mo (-297) 2 [1; 6]; Mo (-109395) 2 [9]]; [Mo 2065 8 [4; 4]; Mo 553 1 [3; 5]; Mo 1389 2 [2; 6]; Mo 1122 1 [1; 7]; Mo 984555 2 [10]]; [Mo (-2520) 1 [4; 5]; Mo (-2826) 1 [3; 6]; Mo (-3663) 1 [2; 7]; Mo (-6006) 1 [1; 8]; Mo (-6235515) 2 [11]]; [Mo 9625 2 [5; 5]; Mo 10078 1 [4; 6]; Mo 23349 2 [3; 7]; Mo 15477 1 [2; 8]; Mo 51051 2 [1; 9]; Mo 31177575 2 [12]]; [Mo (-32121) 1 [5; 6]; Mo (-69507) 2 [4; 7]; Mo (-82467) 2 [3; 8]; Mo (-111111) 2 [2; 9]; Mo (-183183) 2 [1; 10]; Mo (-130945815) 2 [13]]; [Mo 93117 2 [6; 6]; Mo 96231 1 [5; 7]; Mo 213381 2 [4; 8]; Mo 128898 1 [3; 9]; Mo 351351 2 [2; 10]; Mo 288288 1 [1; 11]]; [Mo (-249039) 1 [6; 7]; Mo (-263781) 1 [5; 8]; Mo (-297990) 1 [4; 9]; Mo (-365079) 1 [3; 10]; Mo (-501501) 1 [2; 11]; Mo (-816816) 1 [1; 12]]];
  [[Mo 429 2 [7]]; [Mo (-6435) 2 [8]]; [Mo 25740 1 [9]]; [Mo (-145860) 1 [10]]; [Mo 656370 1 [11]]; [Mo (-2494206) 1 [12]]; [Mo 8314020 1 [13]]]];
 [[[Mo 715 1 [8]]; [Mo (-12155) 1 [9]]; [Mo 109395 1 [10]]; [Mo (-692835) 1 [11]]; [Mo 3464175 1 [12]]; [Mo (-14549535) 1 [13]]];
  [];
  [[Mo 35 2 [3; 4]; Mo 21 1 [2; 5]; Mo 33 1 [1; 6]; Mo 12155 1 [9]]; [Mo (-245) 2 [4; 4]; Mo (-525) 2 [3; 5]; Mo (-330) 1 [2; 6]; Mo (-2145) 4 [1; 7]; Mo (-230945) 1 [10]]; [Mo 3815 2 [4; 5]; Mo 4281 2 [3; 6]; Mo 11121 4 [2; 7]; Mo 18447 4 [1; 8]; Mo 2309450 1 [11]]; [Mo (-5145) 1 [5; 5]; Mo (-21555) 2 [4; 6]; Mo (-49995) 4 [3; 7]; Mo (-66495) 4 [2; 8]; Mo (-27885) 1 [1; 9]; Mo (-16166150) 1 [12]]; [Mo 45330 1 [5; 6]; Mo 196299 4 [4; 7]; Mo 233277 4 [3; 8]; Mo 78936 1 [2; 9]; Mo 132990 1 [1; 10]; Mo 88913825 1 [13]]; [Mo (-83013) 1 [6; 6]; Mo (-686493) 4 [5; 7]; Mo (-761805) 4 [4; 8]; Mo (-461175) 2 [3; 9]; Mo (-316173) 1 [2; 10]; Mo (-532389) 1 [1; 11]]; [Mo 2176365 4 [6; 7]; Mo 2306355 4 [5; 8]; Mo 1304325 2 [4; 9]; Mo 1602315 2 [3; 10]; Mo 1108965 1 [2; 11]; Mo 1859715 1 [1; 12]]];
  [[Mo 715 1 [8]]; [Mo (-12155) 1 [9]]; [Mo 109395 1 [10]]; [Mo (-692835) 1 [11]]; [Mo 3464175 1 [12]]; [Mo (-14549535) 1 [13]]]];
 [[[Mo 2431 1 [9]]; [Mo (-46189) 1 [10]]; [Mo 461890 1 [11]]; [Mo (-3233230) 1 [12]]; [Mo 17782765 1 [13]]];
  [];
  [[Mo 49 2 [4; 4]; Mo 105 2 [3; 5]; Mo 66 1 [2; 6]; Mo 429 4 [1; 7]; Mo 46189 1 [10]]; [Mo (-1617) 2 [4; 5]; Mo (-1815) 2 [3; 6]; Mo (-4719) 4 [2; 7]; Mo (-7865) 4 [1; 8]; Mo (-969969) 1 [11]]; [Mo 6909 2 [5; 5]; Mo 14475 2 [4; 6]; Mo 16797 2 [3; 7]; Mo 44759 4 [2; 8]; Mo 37895 2 [1; 9]; Mo 10669659 1 [12]]; [Mo (-42735) 1 [5; 6]; Mo (-92565) 2 [4; 7]; Mo (-55055) 1 [3; 8]; Mo (-149435) 2 [2; 9]; Mo (-255255) 2 [1; 10]; Mo (-81800719) 1 [13]]; [Mo 205485 2 [6; 6]; Mo 849795 4 [5; 7]; Mo 235895 1 [4; 8]; Mo 286000 1 [3; 9]; Mo 787215 2 [2; 10]; Mo 1349205 2 [1; 11]]; [Mo (-3387153) 4 [6; 7]; Mo (-3590675) 4 [5; 8]; Mo (-1016158) 1 [4; 9]; Mo (-1250535) 1 [3; 10]; Mo (-3478761) 2 [2; 11]; Mo (-5958381) 2 [1; 12]]];
  [[Mo 2431 1 [9]]; [Mo (-46189) 1 [10]]; [Mo 461890 1 [11]]; [Mo (-3233230) 1 [12]]; [Mo 17782765 1 [13]]]];
 [[[Mo 8398 1 [10]]; [Mo (-176358) 1 [11]]; [Mo 1939938 1 [12]]; [Mo (-14872858) 1 [13]]];
  [];
  [[Mo 147 1 [4; 5]; Mo 165 1 [3; 6]; Mo 429 2 [2; 7]; Mo 715 2 [1; 8]; Mo 176358 1 [11]]; [Mo (-1323) 1 [5; 5]; Mo (-2772) 1 [4; 6]; Mo (-6435) 2 [3; 7]; Mo (-4290) 1 [2; 8]; Mo (-7293) 1 [1; 9]; Mo (-4056234) 1 [12]]; [Mo 25788 1 [5; 6]; Mo 55869 2 [4; 7]; Mo 66495 2 [3; 8]; Mo 45188 1 [2; 9]; Mo 77792 1 [1; 10]; Mo 48674808 1 [13]]; [Mo (-86625) 1 [6; 6]; Mo (-358281) 2 [5; 7]; Mo (-397969) 2 [4; 8]; Mo (-482911) 2 [3; 9]; Mo (-333047) 1 [2; 10]; Mo (-1154725) 2 [1; 11]]; [Mo 933240 1 [6; 7]; Mo 989538 1 [5; 8]; Mo 2241525 2 [4; 9]; Mo 2761759 2 [3; 10]; Mo 3853135 2 [2; 11]; Mo 6697405 2 [1; 12]]];
  [[Mo 8398 1 [10]]; [Mo (-176358) 1 [11]]; [Mo 1939938 1 [12]]; [Mo (-14872858) 1 [13]]]];
 [[[Mo 29393 1 [11]]; [Mo (-676039) 1 [12]]; [Mo 8112468 1 [13]]];
  [];
  [[Mo 441 2 [5; 5]; Mo 462 1 [4; 6]; Mo 2145 4 [3; 7]; Mo 715 1 [2; 8]; Mo 2431 2 [1; 9]; Mo 676039 1 [12]]; [Mo (-9009) 1 [5; 6]; Mo (-39039) 4 [4; 7]; Mo (-46475) 4 [3; 8]; Mo (-31603) 2 [2; 9]; Mo (-54587) 2 [1; 10]; Mo (-16900975) 1 [13]]; [Mo 94941 2 [6; 6]; Mo 98175 1 [5; 7]; Mo 436293 4 [4; 8]; Mo 132418 1 [3; 9]; Mo 365755 2 [2; 10]; Mo 319124 1 [1; 11]]; [Mo (-711711) 1 [6; 7]; Mo (-754754) 1 [5; 8]; Mo (-855140) 1 [4; 9]; Mo (-1054391) 1 [3; 10]; Mo (-1473849) 1 [2; 11]; Mo (-2586584) 1 [1; 12]]];
  [[Mo 29393 1 [11]]; [Mo (-676039) 1 [12]]; [Mo 8112468 1 [13]]]];
 [[[Mo 104006 1 [12]]; [Mo (-2600150) 1 [13]]];
  [];
  [[Mo 1386 1 [5; 6]; Mo 3003 2 [4; 7]; Mo 3575 2 [3; 8]; Mo 2431 1 [2; 9]; Mo 4199 1 [1; 10]; Mo 2600150 1 [13]]; [Mo (-15246) 1 [6; 6]; Mo (-63063) 2 [5; 7]; Mo (-35035) 1 [4; 8]; Mo (-85085) 2 [3; 9]; Mo (-58786) 1 [2; 10]; Mo (-205751) 2 [1; 11]]; [Mo 714483 2 [6; 7]; Mo 757757 2 [5; 8]; Mo 858715 2 [4; 9]; Mo 1059253 2 [3; 10]; Mo 1482247 2 [2; 11]; Mo 2615977 2 [1; 12]]];
  [[Mo 104006 1 [12]]; [Mo (-2600150) 1 [13]]]];
 [[[Mo 371450 1 [13]]];
  [];
  [[Mo 2178 1 [6; 6]; Mo 9009 2 [5; 7]; Mo 5005 1 [4; 8]; Mo 12155 2 [3; 9]; Mo 8398 1 [2; 10]; Mo 29393 2 [1; 11]]; [Mo (-212355) 2 [6; 7]; Mo (-225225) 2 [5; 8]; Mo (-255255) 2 [4; 9]; Mo (-314925) 2 [3; 10]; Mo (-440895) 2 [2; 11]; Mo (-780045) 2 [1; 12]]];
  [[Mo 371450 1 [13]]]];
 [[];
  [];
  [[Mo 14157 1 [6; 7]; Mo 15015 1 [5; 8]; Mo 17017 1 [4; 9]; Mo 20995 1 [3; 10]; Mo 29393 1 [2; 11]; Mo 52003 1 [1; 12]]];
  []]].
(** matslise_formulas.cpp: tDelta(2, 0..16) *)
Definition tdelta_row2 : list (list hentry) := [
 [[];
  [];
  [];
  []];
 [[];
  [];
  [];
  []];
 [[];
  [];
  [];
  []];
 [[[Mo (-1) 2 [1]]; [Mo 3 2 [2]]; [Mo (-3) 1 [3]]; [Mo 5 1 [4]]; [Mo (-15) 2 [5]]; [Mo 21 2 [6]]; [Mo (-14) 1 [7]]; [Mo 18 1 [8]]; [Mo (-45) 2 [9]]; [Mo 55 2 [10]]; [Mo (-33) 1 [11]]; [Mo 39 1 [12]]; [Mo (-91) 2 [13]]];
  [[]; [Mo (-1) 2 [1]]; [Mo 1 2 [2]]; [Mo (-1) 2 [3]]; [Mo 1 2 [4]]; [Mo (-1) 2 [5]]; [Mo 1 2 [6]]; [Mo (-1) 2 [7]]; [Mo 1 2 [8]]; [Mo (-1) 2 [9]]; [Mo 1 2 [10]]; [Mo (-1) 2 [11]]; [Mo 1 2 [12]]; [Mo (-1) 2 [13]]];
  [[Mo (-3) 2 [2]]; [Mo 15 2 [3]]; [Mo 1 8 [1; 1]; Mo (-45) 2 [4]]; [Mo (-1) 4 [1; 2]; Mo 105 2 [5]]; [Mo 1 8 [2; 2]; Mo 1 4 [1; 3]; Mo (-105) 1 [6]]; [Mo (-1) 4 [2; 3]; Mo (-1) 4 [1; 4]; Mo 189 1 [7]]; [Mo 1 8 [3; 3]; Mo 1 4 [2; 4]; Mo 1 4 [1; 5]; Mo (-315) 1 [8]]; [Mo (-1) 4 [3; 4]; Mo (-1) 4 [2; 5]; Mo (-1) 4 [1; 6]; Mo 495 1 [9]]; [Mo 1 8 [4; 4]; Mo 1 4 [3; 5]; Mo 1 4 [2; 6]; Mo 1 4 [1; 7]; Mo (-1485) 2 [10]]; [Mo (-1) 4 [4; 5]; Mo (-1) 4 [3; 6]; Mo (-1) 4 [2; 7]; Mo (-1) 4 [1; 8]; Mo 2145 2 [11]]; [Mo 1 8 [5; 5]; Mo 1 4 [4; 6]; Mo 1 4 [3; 7]; Mo 1 4 [2; 8]; Mo 1 4 [1; 9]; Mo (-3003) 2 [12]]; [Mo (-1) 4 [5; 6]; Mo (-1) 4 [4; 7]; Mo (-1) 4 [3; 8]; Mo (-1) 4 [2; 9]; Mo (-1) 4 [1; 10]; Mo 4095 2 [13]]; [Mo 1 8 [6; 6]; Mo 1 4 [5; 7]; Mo 1 4 [4; 8]; Mo 1 4 [3; 9]; Mo 1 4 [2; 10]; Mo 1 4 [1; 11]]; [Mo (-1) 4 [6; 7]; Mo (-1) 4 [5; 8]; Mo (-1) 4 [4; 9]; Mo (-1) 4 [3; 10]; Mo (-1) 4 [2; 11]; Mo (-1) 4 [1; 12]]];
  [[Mo 1 2 [1]]; [Mo (-3) 2 [2]]; [Mo 3 1 [3]]; [Mo (-5) 1 [4]]; [Mo 15 2 [5]]; [Mo (-21) 2 [6]]; [Mo 14 1 [7]]; [Mo (-18) 1 [8]]; [Mo 45 2 [9]]; [Mo (-55) 2 [10]]; [Mo 33 1 [11]]; [Mo (-39) 1 [12]]; [Mo 91 2 [13]]]];
 [[[Mo (-3) 2 [2]]; [Mo 15 2 [3]]; [Mo 1 8 [1; 1]; Mo (-45) 2 [4]]; [Mo (-1) 4 [1; 2]; Mo 105 2 [5]]; [Mo 1 8 [2; 2]; Mo 1 4 [1; 3]; Mo (-105) 1 [6]]; [Mo (-1) 4 [2; 3]; Mo (-1) 4 [1; 4]; Mo 189 1 [7]]; [Mo 1 8 [3; 3]; Mo 1 4 [2; 4]; Mo 1 4 [1; 5]; Mo (-315) 1 [8]]; [Mo (-1) 4 [3; 4]; Mo (-1) 4 [2; 5]; Mo (-1) 4 [1; 6]; Mo 495 1 [9]]; [Mo 1 8 [4; 4]; Mo 1 4 [3; 5]; Mo 1 4 [2; 6]; Mo 1 4 [1; 7]; Mo (-1485) 2 [10]]; [Mo (-1) 4 [4; 5]; Mo (-1) 4 [3; 6]; Mo (-1) 4 [2; 7]; Mo (-1) 4 [1; 8]; Mo 2145 2 [11]]; [Mo 1 8 [5; 5]; Mo 1 4 [4; 6]; Mo 1 4 [3; 7]; Mo 1 4 [2; 8]; Mo 1 4 [1; 9]; Mo (-3003) 2 [12]]; [Mo (-1) 4 [5; 6]; Mo (-1) 4 [4; 7]; Mo (-1) 4 [3; 8]; Mo (-1) 4 [2; 9]; Mo (-1) 4 [1; 10]; Mo 4095 2 [13]]; [Mo 1 8 [6; 6]; Mo 1 4 [5; 7]; Mo 1 4 [4; 8]; Mo 1 4 [3; 9]; Mo 1 4 [2; 10]; Mo 1 4 [1; 11]]];
  [[Mo 1 2 [1]]; [Mo (-3) 2 [2]]; [Mo 3 1 [3]]; [Mo (-5) 1 [4]]; [Mo 15 2 [5]]; [Mo (-21) 2 [6]]; [Mo 14 1 [7]]; [Mo (-18) 1 [8]]; [Mo 45 2 [9]]; [Mo (-55) 2 [10]]; [Mo 33 1 [11]]; [Mo (-39) 1 [12]]; [Mo 91 2 [13]]];
  [[Mo (-15) 2 [3]]; [Mo (-1) 4 [1; 1]; Mo 105 2 [4]]; [Mo 1 1 [1; 2]; Mo (-210) 1 [5]]; [Mo (-3) 4 [2; 2]; Mo (-7) 4 [1; 3]; Mo 630 1 [6]]; [Mo 9 4 [2; 3]; Mo 11 4 [1; 4]; Mo (-1575) 1 [7]]; [Mo (-3) 2 [3; 3]; Mo (-13) 4 [2; 4]; Mo (-4) 1 [1; 5]; Mo 3465 1 [8]]; [Mo 4 1 [3; 4]; Mo 9 2 [2; 5]; Mo 11 2 [1; 6]; Mo (-6930) 1 [9]]; [Mo (-5) 2 [4; 4]; Mo (-21) 4 [3; 5]; Mo (-6) 1 [2; 6]; Mo (-29) 4 [1; 7]; Mo 12870 1 [10]]; [Mo 25 4 [4; 5]; Mo 27 4 [3; 6]; Mo 31 4 [2; 7]; Mo 37 4 [1; 8]; Mo (-45045) 2 [11]]; [Mo (-15) 4 [5; 5]; Mo (-31) 4 [4; 6]; Mo (-17) 2 [3; 7]; Mo (-39) 4 [2; 8]; Mo (-23) 2 [1; 9]; Mo 75075 2 [12]]; [Mo 9 1 [5; 6]; Mo 19 2 [4; 7]; Mo 21 2 [3; 8]; Mo 12 1 [2; 9]; Mo 14 1 [1; 10]; Mo (-60060) 1 [13]]; [Mo (-21) 4 [6; 6]; Mo (-43) 4 [5; 7]; Mo (-23) 2 [4; 8]; Mo (-51) 4 [3; 9]; Mo (-29) 2 [2; 10]; Mo (-67) 4 [1; 11]]; [Mo 49 4 [6; 7]; Mo 51 4 [5; 8]; Mo 55 4 [4; 9]; Mo 61 4 [3; 10]; Mo 69 4 [2; 11]; Mo 79 4 [1; 12]]];
  [[Mo 3 2 [2]]; [Mo (-15) 2 [3]]; [Mo 1 8 [1; 1]; Mo 45 2 [4]]; [Mo (-1) 4 [1; 2]; Mo (-105) 2 [5]]; [Mo 1 8 [2; 2]; Mo 1 4 [1; 3]; Mo 105 1 [6]]; [Mo (-1) 4 [2; 3]; Mo (-1) 4 [1; 4]; Mo (-189) 1 [7]]; [Mo 1 8 [3; 3]; Mo 1 4 [2; 4]; Mo 1 4 [1; 5]; Mo 315 1 [8]]; [Mo (-1) 4 [3; 4]; Mo (-1) 4 [2; 5]; Mo (-1) 4 [1; 6]; Mo (-495) 1 [9]]; [Mo 1 8 [4; 4]; Mo 1 4 [3; 5]; Mo 1 4 [2; 6]; Mo 1 4 [1; 7]; Mo 1485 2 [10]]; [Mo (-1) 4 [4; 5]; Mo (-1) 4 [3; 6]; Mo (-1) 4 [2; 7]; Mo (-1) 4 [1; 8]; Mo (-2145) 2 [11]]; [Mo 1 8 [5; 5]; Mo 1 4 [4; 6]; Mo 1 4 [3; 7]; Mo 1 4 [2; 8]; Mo 1 4 [1; 9]; Mo 3003 2 [12]]; [Mo (-1) 4 [5; 6]; Mo (-1) 4 [4; 7]; Mo (-1) 4 [3; 8]; Mo (-1) 4 [2; 9]; Mo (-1) 4 [1; 10]; Mo (-4095) 2 [13]]; [Mo 1 8 [6; 6]; Mo 1 4 [5; 7]; Mo 1 4 [4; 8]; Mo 1 4 [3; 9]; Mo 1 4 [2; 10]; Mo 1 4 [1; 11]]]];
 [[[Mo (-5) 1 [3]]; [Mo (-1) 4 [1; 1]; Mo 35 1 [4]]; [Mo 1 1 [1; 2]; Mo (-140) 1 [5]]; [Mo (-3) 4 [2; 2]; Mo (-7) 4 [1; 3]; Mo 420 1 [6]]; [Mo 9 4 [2; 3]; Mo 11 4 [1; 4]; Mo (-1050) 1 [7]]; [Mo (-3) 2 [3; 3]; Mo (-13) 4 [2; 4]; Mo (-4) 1 [1; 5]; Mo 2310 1 [8]]; [Mo 4 1 [3; 4]; Mo 9 2 [2; 5]; Mo 11 2 [1; 6]; Mo (-4620) 1 [9]]; [Mo (-5) 2 [4; 4]; Mo (-21) 4 [3; 5]; Mo (-6) 1 [2; 6]; Mo (-29) 4 [1; 7]; Mo 8580 1 [10]]; [Mo 25 4 [4; 5]; Mo 27 4 [3; 6]; Mo 31 4 [2; 7]; Mo 37 4 [1; 8]; Mo (-15015) 1 [11]]; [Mo (-15) 4 [5; 5]; Mo (-31) 4 [4; 6]; Mo (-17) 2 [3; 7]; Mo (-39) 4 [2; 8]; Mo (-23) 2 [1; 9]; Mo 25025 1 [12]]; [Mo 9 1 [5; 6]; Mo 19 2 [4; 7]; Mo 21 2 [3; 8]; Mo 12 1 [2; 9]; Mo 14 1 [1; 10]; Mo (-40040) 1 [13]]; [Mo (-21) 4 [6; 6]; Mo (-43) 4 [5; 7]; Mo (-23) 2 [4; 8]; Mo (-51) 4 [3; 9]; Mo (-29) 2 [2; 10]; Mo (-67) 4 [1; 11]]];
  [[Mo 1 1 [2]]; [Mo (-5) 1 [3]]; [Mo 15 1 [4]]; [Mo (-35) 1 [5]]; [Mo 70 1 [6]]; [Mo (-126) 1 [7]]; [Mo 210 1 [8]]; [Mo (-330) 1 [9]]; [Mo 495 1 [10]]; [Mo (-715) 1 [11]]; [Mo 1001 1 [12]]; [Mo (-1365) 1 [13]]];
  [[Mo 1 12 [1; 1]; Mo (-35) 1 [4]]; [Mo (-5) 4 [1; 2]; Mo 315 1 [5]]; [Mo 3 2 [2; 2]; Mo 19 4 [1; 3]; Mo (-1575) 1 [6]]; [Mo (-1) 48 [1; 1; 1]; Mo (-15) 2 [2; 3]; Mo (-155) 12 [1; 4]; Mo 5775 1 [7]]; [Mo 1 16 [1; 1; 2]; Mo 27 4 [3; 3]; Mo 17 1 [2; 4]; Mo 115 4 [1; 5]; Mo (-17325) 1 [8]]; [Mo (-1) 16 [1; 2; 2]; Mo (-1) 16 [1; 1; 3]; Mo (-25) 1 [3; 4]; Mo (-69) 2 [2; 5]; Mo (-56) 1 [1; 6]; Mo 45045 1 [9]]; [Mo 1 48 [2; 2; 2]; Mo 1 8 [1; 2; 3]; Mo 1 16 [1; 1; 4]; Mo 235 12 [4; 4]; Mo 45 1 [3; 5]; Mo 255 4 [2; 6]; Mo 595 6 [1; 7]; Mo (-105105) 1 [10]]; [Mo (-1) 16 [2; 2; 3]; Mo (-1) 16 [1; 3; 3]; Mo (-1) 8 [1; 2; 4]; Mo (-1) 16 [1; 1; 5]; Mo (-125) 2 [4; 5]; Mo (-309) 4 [3; 6]; Mo (-437) 4 [2; 7]; Mo (-327) 2 [1; 8]; Mo 225225 1 [11]]; [Mo 1 16 [2; 3; 3]; Mo 1 16 [2; 2; 4]; Mo 1 8 [1; 3; 4]; Mo 1 8 [1; 2; 5]; Mo 1 16 [1; 1; 6]; Mo 45 1 [5; 5]; Mo 395 4 [4; 6]; Mo 505 4 [3; 7]; Mo 705 4 [2; 8]; Mo 255 1 [1; 9]; Mo (-450450) 1 [12]]; [Mo (-1) 48 [3; 3; 3]; Mo (-1) 8 [2; 3; 4]; Mo (-1) 16 [1; 4; 4]; Mo (-1) 16 [2; 2; 5]; Mo (-1) 8 [1; 3; 5]; Mo (-1) 8 [1; 2; 6]; Mo (-1) 16 [1; 1; 7]; Mo (-525) 4 [5; 6]; Mo (-1829) 12 [4; 7]; Mo (-789) 4 [3; 8]; Mo (-1083) 4 [2; 9]; Mo (-4565) 12 [1; 10]; Mo 850850 1 [13]]; [Mo 1 16 [3; 3; 4]; Mo 1 16 [2; 4; 4]; Mo 1 8 [2; 3; 5]; Mo 1 8 [1; 4; 5]; Mo 1 16 [2; 2; 6]; Mo 1 8 [1; 3; 6]; Mo 1 8 [1; 2; 7]; Mo 1 16 [1; 1; 8]; Mo 357 4 [6; 6]; Mo 763 4 [5; 7]; Mo 915 4 [4; 8]; Mo 1185 4 [3; 9]; Mo 799 2 [2; 10]; Mo 2189 4 [1; 11]]; [Mo (-1) 16 [3; 4; 4]; Mo (-1) 16 [3; 3; 5]; Mo (-1) 8 [2; 4; 5]; Mo (-1) 16 [1; 5; 5]; Mo (-1) 8 [2; 3; 6]; Mo (-1) 8 [1; 4; 6]; Mo (-1) 16 [2; 2; 7]; Mo (-1) 8 [1; 3; 7]; Mo (-1) 8 [1; 2; 8]; Mo (-1) 16 [1; 1; 9]; Mo (-245) 1 [6; 7]; Mo (-1095) 4 [5; 8]; Mo (-1335) 4 [4; 9]; Mo (-430) 1 [3; 10]; Mo (-570) 1 [2; 11]; Mo (-3055) 4 [1; 12]]];
  [[Mo 5 1 [3]]; [Mo (-1) 4 [1; 1]; Mo (-35) 1 [4]]; [Mo 1 1 [1; 2]; Mo 140 1 [5]]; [Mo (-3) 4 [2; 2]; Mo (-7) 4 [1; 3]; Mo (-420) 1 [6]]; [Mo 9 4 [2; 3]; Mo 11 4 [1; 4]; Mo 1050 1 [7]]; [Mo (-3) 2 [3; 3]; Mo (-13) 4 [2; 4]; Mo (-4) 1 [1; 5]; Mo (-2310) 1 [8]]; [Mo 4 1 [3; 4]; Mo 9 2 [2; 5]; Mo 11 2 [1; 6]; Mo 4620 1 [9]]; [Mo (-5) 2 [4; 4]; Mo (-21) 4 [3; 5]; Mo (-6) 1 [2; 6]; Mo (-29) 4 [1; 7]; Mo (-8580) 1 [10]]; [Mo 25 4 [4; 5]; Mo 27 4 [3; 6]; Mo 31 4 [2; 7]; Mo 37 4 [1; 8]; Mo 15015 1 [11]]; [Mo (-15) 4 [5; 5]; Mo (-31) 4 [4; 6]; Mo (-17) 2 [3; 7]; Mo (-39) 4 [2; 8]; Mo (-23) 2 [1; 9]; Mo (-25025) 1 [12]]; [Mo 9 1 [5; 6]; Mo 19 2 [4; 7]; Mo 21 2 [3; 8]; Mo 12 1 [2; 9]; Mo 14 1 [1; 10]; Mo 40040 1 [13]]; [Mo (-21) 4 [6; 6]; Mo (-43) 4 [5; 7]; Mo (-23) 2 [4; 8]; Mo (-51) 4 [3; 9]; Mo (-29) 2 [2; 10]; Mo (-67) 4 [1; 11]]]];
 [[[Mo 1 8 [1; 1]; Mo (-35) 2 [4]]; [Mo (-5) 4 [1; 2]; Mo 315 2 [5]]; [Mo 13 8 [2; 2]; Mo 4 1 [1; 3]; Mo (-1575) 2 [6]]; [Mo (-15) 2 [2; 3]; Mo (-10) 1 [1; 4]; Mo 5775 2 [7]]; [Mo 7 1 [3; 3]; Mo 31 2 [2; 4]; Mo 85 4 [1; 5]; Mo (-17325) 2 [8]]; [Mo (-25) 1 [3; 4]; Mo (-117) 4 [2; 5]; Mo (-161) 4 [1; 6]; Mo 45045 2 [9]]; [Mo 20 1 [4; 4]; Mo 85 2 [3; 5]; Mo 205 4 [2; 6]; Mo 70 1 [1; 7]; Mo (-105105) 2 [10]]; [Mo (-125) 2 [4; 5]; Mo (-69) 1 [3; 6]; Mo (-169) 2 [2; 7]; Mo (-114) 1 [1; 8]; Mo 225225 2 [11]]; [Mo 365 8 [5; 5]; Mo 95 1 [4; 6]; Mo 215 2 [3; 7]; Mo 265 2 [2; 8]; Mo 705 4 [1; 9]; Mo (-225225) 1 [12]]; [Mo (-525) 4 [5; 6]; Mo (-281) 2 [4; 7]; Mo (-323) 2 [3; 8]; Mo (-797) 4 [2; 9]; Mo (-1045) 4 [1; 10]; Mo 425425 1 [13]]; [Mo 721 8 [6; 6]; Mo 371 2 [5; 7]; Mo 405 2 [4; 8]; Mo 235 1 [3; 9]; Mo 1157 4 [2; 10]; Mo 374 1 [1; 11]]];
  [[Mo 5 2 [3]]; [Mo (-35) 2 [4]]; [Mo 70 1 [5]]; [Mo (-210) 1 [6]]; [Mo 525 1 [7]]; [Mo (-1155) 1 [8]]; [Mo 2310 1 [9]]; [Mo (-4290) 1 [10]]; [Mo 15015 2 [11]]; [Mo (-25025) 2 [12]]; [Mo 20020 1 [13]]];
  [[Mo 1 2 [1; 2]; Mo (-315) 2 [5]]; [Mo (-3) 2 [2; 2]; Mo (-5) 1 [1; 3]; Mo 3465 2 [6]]; [Mo 1 16 [1; 1; 1]; Mo 13 1 [2; 3]; Mo 25 1 [1; 4]; Mo (-10395) 1 [7]]; [Mo (-5) 16 [1; 1; 2]; Mo (-35) 2 [3; 3]; Mo (-45) 1 [2; 4]; Mo (-175) 2 [1; 5]; Mo 45045 1 [8]]; [Mo 7 16 [1; 2; 2]; Mo 1 2 [1; 1; 3]; Mo 90 1 [3; 4]; Mo 130 1 [2; 5]; Mo 245 1 [1; 6]; Mo (-315315) 2 [9]]; [Mo (-3) 16 [2; 2; 2]; Mo (-5) 4 [1; 2; 3]; Mo (-3) 4 [1; 1; 4]; Mo (-185) 2 [4; 4]; Mo (-215) 1 [3; 5]; Mo (-651) 2 [2; 6]; Mo (-588) 1 [1; 7]; Mo 945945 2 [10]]; [Mo 3 4 [2; 2; 3]; Mo 13 16 [1; 3; 3]; Mo 7 4 [1; 2; 4]; Mo 17 16 [1; 1; 5]; Mo 375 1 [4; 5]; Mo 475 1 [3; 6]; Mo 728 1 [2; 7]; Mo 1260 1 [1; 8]; Mo (-1261260) 1 [11]]; [Mo (-15) 16 [2; 3; 3]; Mo (-1) 1 [2; 2; 4]; Mo (-17) 8 [1; 3; 4]; Mo (-19) 8 [1; 2; 5]; Mo (-23) 16 [1; 1; 6]; Mo (-665) 2 [5; 5]; Mo (-735) 1 [4; 6]; Mo (-1951) 2 [3; 7]; Mo (-1488) 1 [2; 8]; Mo (-2475) 1 [1; 9]; Mo 3063060 1 [12]]; [Mo 3 8 [3; 3; 3]; Mo 19 8 [2; 3; 4]; Mo 21 16 [1; 4; 4]; Mo 21 16 [2; 2; 5]; Mo 11 4 [1; 3; 5]; Mo 25 8 [1; 2; 6]; Mo 15 8 [1; 1; 7]; Mo 2345 2 [5; 6]; Mo 2765 2 [4; 7]; Mo 3755 2 [3; 8]; Mo 5655 2 [2; 9]; Mo 9075 2 [1; 10]; Mo (-6891885) 1 [13]]; [Mo (-11) 8 [3; 3; 4]; Mo (-23) 16 [2; 4; 4]; Mo (-3) 1 [2; 3; 5]; Mo (-13) 4 [1; 4; 5]; Mo (-27) 16 [2; 2; 6]; Mo (-7) 2 [1; 3; 6]; Mo (-4) 1 [1; 2; 7]; Mo (-19) 8 [1; 1; 8]; Mo (-945) 1 [6; 6]; Mo (-2030) 1 [5; 7]; Mo (-4985) 2 [4; 8]; Mo (-3415) 1 [3; 9]; Mo (-5060) 1 [2; 10]; Mo (-7865) 1 [1; 11]]; [Mo 13 8 [3; 4; 4]; Mo 27 16 [3; 3; 5]; Mo 7 2 [2; 4; 5]; Mo 31 16 [1; 5; 5]; Mo 15 4 [2; 3; 6]; Mo 4 1 [1; 4; 6]; Mo 17 8 [2; 2; 7]; Mo 35 8 [1; 3; 7]; Mo 5 1 [1; 2; 8]; Mo 47 16 [1; 1; 9]; Mo 3038 1 [6; 7]; Mo 3430 1 [5; 8]; Mo 4315 1 [4; 9]; Mo 5915 1 [3; 10]; Mo 8613 1 [2; 11]; Mo 13013 1 [1; 12]]];
  [[Mo 1 8 [1; 1]; Mo 35 2 [4]]; [Mo (-5) 4 [1; 2]; Mo (-315) 2 [5]]; [Mo 13 8 [2; 2]; Mo 4 1 [1; 3]; Mo 1575 2 [6]]; [Mo (-15) 2 [2; 3]; Mo (-10) 1 [1; 4]; Mo (-5775) 2 [7]]; [Mo 7 1 [3; 3]; Mo 31 2 [2; 4]; Mo 85 4 [1; 5]; Mo 17325 2 [8]]; [Mo (-25) 1 [3; 4]; Mo (-117) 4 [2; 5]; Mo (-161) 4 [1; 6]; Mo (-45045) 2 [9]]; [Mo 20 1 [4; 4]; Mo 85 2 [3; 5]; Mo 205 4 [2; 6]; Mo 70 1 [1; 7]; Mo 105105 2 [10]]; [Mo (-125) 2 [4; 5]; Mo (-69) 1 [3; 6]; Mo (-169) 2 [2; 7]; Mo (-114) 1 [1; 8]; Mo (-225225) 2 [11]]; [Mo 365 8 [5; 5]; Mo 95 1 [4; 6]; Mo 215 2 [3; 7]; Mo 265 2 [2; 8]; Mo 705 4 [1; 9]; Mo 225225 1 [12]]; [Mo (-525) 4 [5; 6]; Mo (-281) 2 [4; 7]; Mo (-323) 2 [3; 8]; Mo (-797) 4 [2; 9]; Mo (-1045) 4 [1; 10]; Mo (-425425) 1 [13]]; [Mo 721 8 [6; 6]; Mo 371 2 [5; 7]; Mo 405 2 [4; 8]; Mo 235 1 [3; 9]; Mo 1157 4 [2; 10]; Mo 374 1 [1; 11]]]];
 [[[Mo 1 2 [1; 2]; Mo (-63) 1 [5]]; [Mo (-3) 2 [2; 2]; Mo (-15) 4 [1; 3]; Mo 693 1 [6]]; [Mo 47 4 [2; 3]; Mo 65 4 [1; 4]; Mo (-4158) 1 [7]]; [Mo (-65) 4 [3; 3]; Mo (-145) 4 [2; 4]; Mo (-105) 2 [1; 5]; Mo 18018 1 [8]]; [Mo 80 1 [3; 4]; Mo 95 1 [2; 5]; Mo 140 1 [1; 6]; Mo (-63063) 1 [9]]; [Mo (-335) 4 [4; 4]; Mo (-715) 4 [3; 5]; Mo (-441) 2 [2; 6]; Mo (-651) 2 [1; 7]; Mo 189189 1 [10]]; [Mo 1325 4 [4; 5]; Mo 1475 4 [3; 6]; Mo 931 2 [2; 7]; Mo 1365 2 [1; 8]; Mo (-504504) 1 [11]]; [Mo (-595) 2 [5; 5]; Mo (-2485) 4 [4; 6]; Mo (-2847) 4 [3; 7]; Mo (-1821) 2 [2; 8]; Mo (-1320) 1 [1; 9]; Mo 1225224 1 [12]]; [Mo 2065 2 [5; 6]; Mo 4445 4 [4; 7]; Mo 5195 4 [3; 8]; Mo 3345 2 [2; 9]; Mo 4785 2 [1; 10]; Mo (-2756754) 1 [13]]; [Mo (-840) 1 [6; 6]; Mo (-3465) 2 [5; 7]; Mo (-7625) 4 [4; 8]; Mo (-9035) 4 [3; 9]; Mo (-2915) 1 [2; 10]; Mo (-16445) 4 [1; 11]]];
  [[Mo 7 1 [4]]; [Mo (-63) 1 [5]]; [Mo 315 1 [6]]; [Mo (-1155) 1 [7]]; [Mo 3465 1 [8]]; [Mo (-9009) 1 [9]]; [Mo 21021 1 [10]]; [Mo (-45045) 1 [11]]; [Mo 90090 1 [12]]; [Mo (-170170) 1 [13]]];
  [[Mo 3 5 [2; 2]; Mo 7 4 [1; 3]; Mo (-693) 1 [6]]; [Mo (-1) 16 [1; 1; 1]; Mo (-45) 4 [2; 3]; Mo (-21) 1 [1; 4]; Mo 9009 1 [7]]; [Mo 9 16 [1; 1; 2]; Mo 51 2 [3; 3]; Mo 127 2 [2; 4]; Mo 511 4 [1; 5]; Mo (-63063) 1 [8]]; [Mo (-19) 16 [1; 2; 2]; Mo (-23) 16 [1; 1; 3]; Mo (-759) 4 [3; 4]; Mo (-1071) 4 [2; 5]; Mo (-2163) 4 [1; 6]; Mo 315315 1 [9]]; [Mo 11 16 [2; 2; 2]; Mo 39 8 [1; 2; 3]; Mo 51 16 [1; 1; 4]; Mo 1065 4 [4; 4]; Mo 609 1 [3; 5]; Mo 3675 4 [2; 6]; Mo 7245 4 [1; 7]; Mo (-1261260) 1 [10]]; [Mo (-59) 16 [2; 2; 3]; Mo (-17) 4 [1; 3; 3]; Mo (-75) 8 [1; 2; 4]; Mo (-101) 16 [1; 1; 5]; Mo (-5565) 4 [4; 5]; Mo (-3465) 2 [3; 6]; Mo (-53949) 20 [2; 7]; Mo (-20559) 4 [1; 8]; Mo 4288284 1 [11]]; [Mo 47 8 [2; 3; 3]; Mo 103 16 [2; 2; 4]; Mo 29 2 [1; 3; 4]; Mo 135 8 [1; 2; 5]; Mo 183 16 [1; 1; 6]; Mo 6195 4 [5; 5]; Mo 13559 4 [4; 6]; Mo 17815 4 [3; 7]; Mo 28035 4 [2; 8]; Mo 51513 4 [1; 9]; Mo (-12864852) 1 [12]]; [Mo (-23) 8 [3; 3; 3]; Mo (-75) 4 [2; 3; 4]; Mo (-45) 4 [1; 4; 4]; Mo (-173) 16 [2; 2; 5]; Mo (-191) 8 [1; 3; 5]; Mo (-229) 8 [1; 2; 6]; Mo (-309) 16 [1; 1; 7]; Mo (-13293) 2 [5; 6]; Mo (-15477) 2 [4; 7]; Mo (-42021) 4 [3; 8]; Mo (-66033) 4 [2; 9]; Mo (-117117) 4 [1; 10]; Mo 34918884 1 [13]]; [Mo 103 8 [3; 3; 4]; Mo 111 8 [2; 4; 4]; Mo 235 8 [2; 3; 5]; Mo 275 8 [1; 4; 5]; Mo 279 16 [2; 2; 6]; Mo 303 8 [1; 3; 6]; Mo 369 8 [1; 2; 7]; Mo 493 16 [1; 1; 8]; Mo 25683 4 [6; 6]; Mo 13699 1 [5; 7]; Mo 16646 1 [4; 8]; Mo 23022 1 [3; 9]; Mo 143517 4 [2; 10]; Mo 123123 2 [1; 11]]; [Mo (-145) 8 [3; 4; 4]; Mo (-153) 8 [3; 3; 5]; Mo (-327) 8 [2; 4; 5]; Mo (-395) 16 [1; 5; 5]; Mo (-359) 8 [2; 3; 6]; Mo (-411) 8 [1; 4; 6]; Mo (-433) 16 [2; 2; 7]; Mo (-58) 1 [1; 3; 7]; Mo (-569) 8 [1; 2; 8]; Mo (-751) 16 [1; 1; 9]; Mo (-24255) 1 [6; 7]; Mo (-54243) 2 [5; 8]; Mo (-135725) 4 [4; 9]; Mo (-94721) 2 [3; 10]; Mo (-72930) 1 [2; 11]; Mo (-485485) 4 [1; 12]]];
  [[Mo 1 2 [1; 2]; Mo 63 1 [5]]; [Mo (-3) 2 [2; 2]; Mo (-15) 4 [1; 3]; Mo (-693) 1 [6]]; [Mo 47 4 [2; 3]; Mo 65 4 [1; 4]; Mo 4158 1 [7]]; [Mo (-65) 4 [3; 3]; Mo (-145) 4 [2; 4]; Mo (-105) 2 [1; 5]; Mo (-18018) 1 [8]]; [Mo 80 1 [3; 4]; Mo 95 1 [2; 5]; Mo 140 1 [1; 6]; Mo 63063 1 [9]]; [Mo (-335) 4 [4; 4]; Mo (-715) 4 [3; 5]; Mo (-441) 2 [2; 6]; Mo (-651) 2 [1; 7]; Mo (-189189) 1 [10]]; [Mo 1325 4 [4; 5]; Mo 1475 4 [3; 6]; Mo 931 2 [2; 7]; Mo 1365 2 [1; 8]; Mo 504504 1 [11]]; [Mo (-595) 2 [5; 5]; Mo (-2485) 4 [4; 6]; Mo (-2847) 4 [3; 7]; Mo (-1821) 2 [2; 8]; Mo (-1320) 1 [1; 9]; Mo (-1225224) 1 [12]]; [Mo 2065 2 [5; 6]; Mo 4445 4 [4; 7]; Mo 5195 4 [3; 8]; Mo 3345 2 [2; 9]; Mo 4785 2 [1; 10]; Mo 2756754 1 [13]]; [Mo (-840) 1 [6; 6]; Mo (-3465) 2 [5; 7]; Mo (-7625) 4 [4; 8]; Mo (-9035) 4 [3; 9]; Mo (-2915) 1 [2; 10]; Mo (-16445) 4 [1; 11]]]];
 [[[Mo 1 2 [2; 2]; Mo 5 4 [1; 3]; Mo (-231) 1 [6]]; [Mo (-35) 4 [2; 3]; Mo (-49) 4 [1; 4]; Mo 3003 1 [7]]; [Mo 20 1 [3; 3]; Mo 179 4 [2; 4]; Mo 133 2 [1; 5]; Mo (-21021) 1 [8]]; [Mo (-287) 2 [3; 4]; Mo (-343) 2 [2; 5]; Mo (-525) 2 [1; 6]; Mo 105105 1 [9]]; [Mo 407 2 [4; 4]; Mo 1741 4 [3; 5]; Mo 1085 2 [2; 6]; Mo 840 1 [1; 7]; Mo (-420420) 1 [10]]; [Mo (-4165) 4 [4; 5]; Mo (-4655) 4 [3; 6]; Mo (-1491) 1 [2; 7]; Mo (-2310) 1 [1; 8]; Mo 1429428 1 [11]]; [Mo 1169 1 [5; 5]; Mo 9779 4 [4; 6]; Mo 5635 2 [3; 7]; Mo 3675 1 [2; 8]; Mo 11319 2 [1; 9]; Mo (-4288284) 1 [12]]; [Mo (-4949) 1 [5; 6]; Mo (-5341) 1 [4; 7]; Mo (-12585) 2 [3; 8]; Mo (-16599) 2 [2; 9]; Mo (-25311) 2 [1; 10]; Mo 11639628 1 [13]]; [Mo 9625 2 [6; 6]; Mo 19873 2 [5; 7]; Mo 10976 1 [4; 8]; Mo 52563 4 [3; 9]; Mo 34881 2 [2; 10]; Mo 105105 4 [1; 11]]];
  [[Mo 21 1 [5]]; [Mo (-231) 1 [6]]; [Mo 1386 1 [7]]; [Mo (-6006) 1 [8]]; [Mo 21021 1 [9]]; [Mo (-63063) 1 [10]]; [Mo 168168 1 [11]]; [Mo (-408408) 1 [12]]; [Mo 918918 1 [13]]];
  [[Mo 1 48 [1; 1; 1]; Mo 15 4 [2; 3]; Mo 77 12 [1; 4]; Mo (-3003) 1 [7]]; [Mo (-7) 16 [1; 1; 2]; Mo (-75) 4 [3; 3]; Mo (-91) 2 [2; 4]; Mo (-357) 4 [1; 5]; Mo 45045 1 [8]]; [Mo 25 16 [1; 2; 2]; Mo 31 16 [1; 1; 3]; Mo 226 1 [3; 4]; Mo 1239 4 [2; 5]; Mo 2541 4 [1; 6]; Mo (-360360) 1 [9]]; [Mo (-21) 16 [2; 2; 2]; Mo (-77) 8 [1; 2; 3]; Mo (-105) 16 [1; 1; 4]; Mo (-5495) 12 [4; 4]; Mo (-4137) 4 [3; 5]; Mo (-6111) 4 [2; 6]; Mo (-12551) 4 [1; 7]; Mo 2042040 1 [10]]; [Mo 155 16 [2; 2; 3]; Mo 93 8 [1; 3; 3]; Mo 207 8 [1; 2; 4]; Mo 295 16 [1; 1; 5]; Mo 3199 1 [4; 5]; Mo 7833 2 [3; 6]; Mo 24171 4 [2; 7]; Mo 48741 4 [1; 8]; Mo (-9189180) 1 [11]]; [Mo (-161) 8 [2; 3; 3]; Mo (-357) 16 [2; 2; 4]; Mo (-105) 2 [1; 3; 4]; Mo (-497) 8 [1; 2; 5]; Mo (-721) 16 [1; 1; 6]; Mo (-18291) 4 [5; 5]; Mo (-39725) 4 [4; 6]; Mo (-25683) 2 [3; 7]; Mo (-81081) 4 [2; 8]; Mo (-159159) 4 [1; 9]; Mo 34918884 1 [12]]; [Mo 197 16 [3; 3; 3]; Mo 163 2 [2; 3; 4]; Mo 415 8 [1; 4; 4]; Mo 767 16 [2; 2; 5]; Mo 885 8 [1; 3; 5]; Mo 1087 8 [1; 2; 6]; Mo 791 8 [1; 1; 7]; Mo 24297 1 [5; 6]; Mo 167797 6 [4; 7]; Mo 75033 2 [3; 8]; Mo 239085 4 [2; 9]; Mo 455455 4 [1; 10]; Mo (-116396280) 1 [13]]; [Mo (-1085) 16 [3; 3; 4]; Mo (-595) 8 [2; 4; 4]; Mo (-1267) 8 [2; 3; 5]; Mo (-1575) 8 [1; 4; 5]; Mo (-1545) 16 [2; 2; 6]; Mo (-1751) 8 [1; 3; 6]; Mo (-275) 1 [1; 2; 7]; Mo (-1593) 8 [1; 1; 8]; Mo (-113841) 4 [6; 6]; Mo (-241605) 4 [5; 7]; Mo (-145005) 2 [4; 8]; Mo (-199287) 2 [3; 9]; Mo (-635349) 4 [2; 10]; Mo (-1174173) 4 [1; 11]]; [Mo 1835 16 [3; 4; 4]; Mo 975 8 [3; 3; 5]; Mo 2125 8 [2; 4; 5]; Mo 2745 16 [1; 5; 5]; Mo 2357 8 [2; 3; 6]; Mo 2865 8 [1; 4; 6]; Mo 1469 8 [2; 2; 7]; Mo 3277 8 [1; 3; 7]; Mo 1043 2 [1; 2; 8]; Mo 5985 16 [1; 1; 9]; Mo 510237 4 [6; 7]; Mo 565803 4 [5; 8]; Mo 700161 4 [4; 9]; Mo 976965 4 [3; 10]; Mo 387387 1 [2; 11]; Mo 1390389 2 [1; 12]]];
  [[Mo 1 2 [2; 2]; Mo 5 4 [1; 3]; Mo 231 1 [6]]; [Mo (-35) 4 [2; 3]; Mo (-49) 4 [1; 4]; Mo (-3003) 1 [7]]; [Mo 20 1 [3; 3]; Mo 179 4 [2; 4]; Mo 133 2 [1; 5]; Mo 21021 1 [8]]; [Mo (-287) 2 [3; 4]; Mo (-343) 2 [2; 5]; Mo (-525) 2 [1; 6]; Mo (-105105) 1 [9]]; [Mo 407 2 [4; 4]; Mo 1741 4 [3; 5]; Mo 1085 2 [2; 6]; Mo 840 1 [1; 7]; Mo 420420 1 [10]]; [Mo (-4165) 4 [4; 5]; Mo (-4655) 4 [3; 6]; Mo (-1491) 1 [2; 7]; Mo (-2310) 1 [1; 8]; Mo (-1429428) 1 [11]]; [Mo 1169 1 [5; 5]; Mo 9779 4 [4; 6]; Mo 5635 2 [3; 7]; Mo 3675 1 [2; 8]; Mo 11319 2 [1; 9]; Mo 4288284 1 [12]]; [Mo (-4949) 1 [5; 6]; Mo (-5341) 1 [4; 7]; Mo (-12585) 2 [3; 8]; Mo (-16599) 2 [2; 9]; Mo (-25311) 2 [1; 10]; Mo (-11639628) 1 [13]]; [Mo 9625 2 [6; 6]; Mo 19873 2 [5; 7]; Mo 10976 1 [4; 8]; Mo 52563 4 [3; 9]; Mo 34881 2 [2; 10]; Mo 105105 4 [1; 11]]]];
 [[[Mo 5 2 [2; 3]; Mo 7 2 [1; 4]; Mo (-858) 1 [7]]; [Mo (-25) 2 [3; 3]; Mo (-28) 1 [2; 4]; Mo (-42) 1 [1; 5]; Mo 12870 1 [8]]; [Mo 146 1 [3; 4]; Mo 175 1 [2; 5]; Mo 273 1 [1; 6]; Mo (-102960) 1 [9]]; [Mo (-595) 2 [4; 4]; Mo (-637) 1 [3; 5]; Mo (-798) 1 [2; 6]; Mo (-2541) 2 [1; 7]; Mo 583440 1 [10]]; [Mo 4081 2 [4; 5]; Mo 4571 2 [3; 6]; Mo 5901 2 [2; 7]; Mo 9471 2 [1; 8]; Mo (-2625480) 1 [11]]; [Mo (-2933) 1 [5; 5]; Mo (-6139) 1 [4; 6]; Mo (-7098) 1 [3; 7]; Mo (-18711) 2 [2; 8]; Mo (-15015) 1 [1; 9]; Mo 9976824 1 [12]]; [Mo 15400 1 [5; 6]; Mo 16646 1 [4; 7]; Mo 19698 1 [3; 8]; Mo 26334 1 [2; 9]; Mo 42042 1 [1; 10]; Mo (-33256080) 1 [13]]; [Mo (-18123) 1 [6; 6]; Mo (-37443) 1 [5; 7]; Mo (-41454) 1 [4; 8]; Mo (-99825) 2 [3; 9]; Mo (-67353) 1 [2; 10]; Mo (-213213) 2 [1; 11]]];
  [[Mo 66 1 [6]]; [Mo (-858) 1 [7]]; [Mo 6006 1 [8]]; [Mo (-30030) 1 [9]]; [Mo 120120 1 [10]]; [Mo (-408408) 1 [11]]; [Mo 1225224 1 [12]]; [Mo (-3325608) 1 [13]]];
  [[Mo 1 8 [1; 1; 2]; Mo 75 14 [3; 3]; Mo 13 1 [2; 4]; Mo 24 1 [1; 5]; Mo (-12870) 1 [8]]; [Mo (-1) 1 [1; 2; 2]; Mo (-5) 4 [1; 1; 3]; Mo (-140) 1 [3; 4]; Mo (-189) 1 [2; 5]; Mo (-759) 2 [1; 6]; Mo 218790 1 [9]]; [Mo 11 8 [2; 2; 2]; Mo 41 4 [1; 2; 3]; Mo 57 8 [1; 1; 4]; Mo 915 2 [4; 4]; Mo 1029 1 [3; 5]; Mo 2985 2 [2; 6]; Mo 6171 2 [1; 7]; Mo (-1969110) 1 [10]]; [Mo (-59) 4 [2; 2; 3]; Mo (-145) 8 [1; 3; 3]; Mo (-81) 2 [1; 2; 4]; Mo (-119) 4 [1; 1; 5]; Mo (-4550) 1 [4; 5]; Mo (-11049) 2 [3; 6]; Mo (-16797) 2 [2; 7]; Mo (-34749) 2 [1; 8]; Mo 12471030 1 [11]]; [Mo 331 8 [2; 3; 3]; Mo 369 8 [2; 2; 4]; Mo 447 4 [1; 3; 4]; Mo 533 4 [1; 2; 5]; Mo 805 8 [1; 1; 6]; Mo 8655 1 [5; 5]; Mo 37481 2 [4; 6]; Mo 47961 2 [3; 7]; Mo 75075 2 [2; 8]; Mo 153153 2 [1; 9]; Mo (-62355150) 1 [12]]; [Mo (-65) 2 [3; 3; 3]; Mo (-867) 4 [2; 3; 4]; Mo (-1149) 8 [1; 4; 4]; Mo (-515) 4 [2; 2; 5]; Mo (-307) 1 [1; 3; 5]; Mo (-763) 2 [1; 2; 6]; Mo (-2331) 8 [1; 1; 7]; Mo (-116889) 2 [5; 6]; Mo (-133809) 2 [4; 7]; Mo (-177639) 2 [3; 8]; Mo (-282711) 2 [2; 9]; Mo (-282282) 1 [1; 10]; Mo 261891630 1 [13]]; [Mo 1787 8 [3; 3; 4]; Mo 1979 8 [2; 4; 4]; Mo 2113 4 [2; 3; 5]; Mo 2745 4 [1; 4; 5]; Mo 2613 8 [2; 2; 6]; Mo 3065 4 [1; 3; 6]; Mo 3913 4 [1; 2; 7]; Mo 5985 8 [1; 1; 8]; Mo 168819 2 [6; 6]; Mo 357501 2 [5; 7]; Mo 426111 2 [4; 8]; Mo 580503 2 [3; 9]; Mo 465465 1 [2; 10]; Mo 906906 1 [1; 11]]; [Mo (-1837) 4 [3; 4; 4]; Mo (-1959) 4 [3; 3; 5]; Mo (-1080) 1 [2; 4; 5]; Mo (-2933) 4 [1; 5; 5]; Mo (-1204) 1 [2; 3; 6]; Mo (-1533) 1 [1; 4; 6]; Mo (-6113) 8 [2; 2; 7]; Mo (-14117) 8 [1; 3; 7]; Mo (-9171) 4 [1; 2; 8]; Mo (-13959) 8 [1; 1; 9]; Mo (-455133) 1 [6; 7]; Mo (-1005459) 2 [5; 8]; Mo (-1234695) 2 [4; 9]; Mo (-5993559) 7 [3; 10]; Mo (-1374945) 1 [2; 11]; Mo (-2610894) 1 [1; 12]]];
  [[Mo 5 2 [2; 3]; Mo 7 2 [1; 4]; Mo 858 1 [7]]; [Mo (-25) 2 [3; 3]; Mo (-28) 1 [2; 4]; Mo (-42) 1 [1; 5]; Mo (-12870) 1 [8]]; [Mo 146 1 [3; 4]; Mo 175 1 [2; 5]; Mo 273 1 [1; 6]; Mo 102960 1 [9]]; [Mo (-595) 2 [4; 4]; Mo (-637) 1 [3; 5]; Mo (-798) 1 [2; 6]; Mo (-2541) 2 [1; 7]; Mo (-583440) 1 [10]]; [Mo 4081 2 [4; 5]; Mo 4571 2 [3; 6]; Mo 5901 2 [2; 7]; Mo 9471 2 [1; 8]; Mo 2625480 1 [11]]; [Mo (-2933) 1 [5; 5]; Mo (-6139) 1 [4; 6]; Mo (-7098) 1 [3; 7]; Mo (-18711) 2 [2; 8]; Mo (-15015) 1 [1; 9]; Mo (-9976824) 1 [12]]; [Mo 15400 1 [5; 6]; Mo 16646 1 [4; 7]; Mo 19698 1 [3; 8]; Mo 26334 1 [2; 9]; Mo 42042 1 [1; 10]; Mo 33256080 1 [13]]; [Mo (-18123) 1 [6; 6]; Mo (-37443) 1 [5; 7]; Mo (-41454) 1 [4; 8]; Mo (-99825) 2 [3; 9]; Mo (-67353) 1 [2; 10]; Mo (-213213) 2 [1; 11]]]];
 [[[Mo 25 8 [3; 3]; Mo 7 1 [2; 4]; Mo 21 2 [1; 5]; Mo (-6435) 2 [8]]; [Mo (-315) 4 [3; 4]; Mo (-189) 2 [2; 5]; Mo (-297) 2 [1; 6]; Mo 109395 2 [9]]; [Mo 2065 8 [4; 4]; Mo 553 1 [3; 5]; Mo 1389 2 [2; 6]; Mo 1122 1 [1; 7]; Mo (-984555) 2 [10]]; [Mo (-2520) 1 [4; 5]; Mo (-2826) 1 [3; 6]; Mo (-3663) 1 [2; 7]; Mo (-6006) 1 [1; 8]; Mo 6235515 2 [11]]; [Mo 9625 2 [5; 5]; Mo 10078 1 [4; 6]; Mo 23349 2 [3; 7]; Mo 15477 1 [2; 8]; Mo 51051 2 [1; 9]; Mo (-31177575) 2 [12]]; [Mo (-32121) 1 [5; 6]; Mo (-69507) 2 [4; 7]; Mo (-82467) 2 [3; 8]; Mo (-111111) 2 [2; 9]; Mo (-183183) 2 [1; 10]; Mo 130945815 2 [13]]; [Mo 93117 2 [6; 6]; Mo 96231 1 [5; 7]; Mo 213381 2 [4; 8]; Mo 128898 1 [3; 9]; Mo 351351 2 [2; 10]; Mo 288288 1 [1; 11]]];
  [[Mo 429 2 [7]]; [Mo (-6435) 2 [8]]; [Mo 25740 1 [9]]; [Mo (-145860) 1 [10]]; [Mo 656370 1 [11]]; [Mo (-2494206) 1 [12]]; [Mo 8314020 1 [13]]];
  [[Mo 1 4 [1; 2; 2]; Mo 5 16 [1; 1; 3]; Mo 35 1 [3; 4]; Mo 189 4 [2; 5]; Mo 363 4 [1; 6]; Mo (-109395) 2 [9]]; [Mo (-3) 4 [2; 2; 2]; Mo (-45) 8 [1; 2; 3]; Mo (-63) 16 [1; 1; 4]; Mo (-245) 1 [4; 4]; Mo (-2205) 4 [3; 5]; Mo (-792) 1 [2; 6]; Mo (-6435) 4 [1; 7]; Mo 2078505 2 [10]]; [Mo 209 16 [2; 2; 3]; Mo 65 4 [1; 3; 3]; Mo 291 8 [1; 2; 4]; Mo 217 8 [1; 1; 5]; Mo 15575 4 [4; 5]; Mo 18873 4 [3; 6]; Mo 28347 4 [2; 7]; Mo 58773 4 [1; 8]; Mo (-10392525) 1 [11]]; [Mo (-105) 2 [2; 3; 3]; Mo (-939) 16 [2; 2; 4]; Mo (-579) 4 [1; 3; 4]; Mo (-693) 4 [1; 2; 5]; Mo (-1071) 8 [1; 1; 6]; Mo (-41895) 4 [5; 5]; Mo (-90675) 4 [4; 6]; Mo (-28875) 1 [3; 7]; Mo (-178893) 4 [2; 8]; Mo (-371085) 4 [1; 9]; Mo 72747675 1 [12]]; [Mo 55 1 [3; 3; 3]; Mo 1473 4 [2; 3; 4]; Mo 501 2 [1; 4; 4]; Mo 1759 8 [2; 2; 5]; Mo 4289 8 [1; 3; 5]; Mo 2681 4 [1; 2; 6]; Mo 4221 8 [1; 1; 7]; Mo 93420 1 [5; 6]; Mo 106779 1 [4; 7]; Mo 140877 1 [3; 8]; Mo 222651 1 [2; 9]; Mo 456885 1 [1; 10]; Mo (-800224425) 2 [13]]; [Mo (-483) 1 [3; 3; 4]; Mo (-2151) 4 [2; 4; 4]; Mo (-9201) 8 [2; 3; 5]; Mo (-12327) 8 [1; 4; 5]; Mo (-5733) 8 [2; 2; 6]; Mo (-13797) 8 [1; 3; 6]; Mo (-8883) 4 [1; 2; 7]; Mo (-14091) 8 [1; 1; 8]; Mo (-682353) 4 [6; 6]; Mo (-1444305) 4 [5; 7]; Mo (-429165) 1 [4; 8]; Mo (-2323035) 4 [3; 9]; Mo (-3716427) 4 [2; 10]; Mo (-1874301) 1 [1; 11]]; [Mo 1228 1 [3; 4; 4]; Mo 10497 8 [3; 3; 5]; Mo 23307 8 [2; 4; 5]; Mo 2051 1 [1; 5; 5]; Mo 26057 8 [2; 3; 6]; Mo 34335 8 [1; 4; 6]; Mo 16709 8 [2; 2; 7]; Mo 19831 4 [1; 3; 7]; Mo 26061 4 [1; 2; 8]; Mo 41349 8 [1; 1; 9]; Mo 4509513 4 [6; 7]; Mo 4975335 4 [5; 8]; Mo 6086025 4 [4; 9]; Mo 8389095 4 [3; 10]; Mo 3375801 1 [2; 11]; Mo 6673095 1 [1; 12]]];
  [[Mo 25 8 [3; 3]; Mo 7 1 [2; 4]; Mo 21 2 [1; 5]; Mo 6435 2 [8]]; [Mo (-315) 4 [3; 4]; Mo (-189) 2 [2; 5]; Mo (-297) 2 [1; 6]; Mo (-109395) 2 [9]]; [Mo 2065 8 [4; 4]; Mo 553 1 [3; 5]; Mo 1389 2 [2; 6]; Mo 1122 1 [1; 7]; Mo 984555 2 [10]]; [Mo (-2520) 1 [4; 5]; Mo (-2826) 1 [3; 6]; Mo (-3663) 1 [2; 7]; Mo (-6006) 1 [1; 8]; Mo (-6235515) 2 [11]]; [Mo 9625 2 [5; 5]; Mo 10078 1 [4; 6]; Mo 23349 2 [3; 7]; Mo 15477 1 [2; 8]; Mo 51051 2 [1; 9]; Mo 31177575 2 [12]]; [Mo (-32121) 1 [5; 6]; Mo (-69507) 2 [4; 7]; Mo (-82467) 2 [3; 8]; Mo (-111111) 2 [2; 9]; Mo (-183183) 2 [1; 10]; Mo (-130945815) 2 [13]]; [Mo 93117 2 [6; 6]; Mo 96231 1 [5; 7]; Mo 213381 2 [4; 8]; Mo 128898 1 [3; 9]; Mo 351351 2 [2; 10]; Mo 288288 1 [1; 11]]]];
 [[[Mo 35 2 [3; 4]; Mo 21 1 [2; 5]; Mo 33 1 [1; 6]; Mo (-12155) 1 [9]]; [Mo (-245) 2 [4; 4]; Mo (-525) 2 [3; 5]; Mo (-330) 1 [2; 6]; Mo (-2145) 4 [1; 7]; Mo 230945 1 [10]]; [Mo 3815 2 [4; 5]; Mo 4281 2 [3; 6]; Mo 11121 4 [2; 7]; Mo 18447 4 [1; 8]; Mo (-2309450) 1 [11]]; [Mo (-5145) 1 [5; 5]; Mo (-21555) 2 [4; 6]; Mo (-49995) 4 [3; 7]; Mo (-66495) 4 [2; 8]; Mo (-27885) 1 [1; 9]; Mo 16166150 1 [12]]; [Mo 45330 1 [5; 6]; Mo 196299 4 [4; 7]; Mo 233277 4 [3; 8]; Mo 78936 1 [2; 9]; Mo 132990 1 [1; 10]; Mo (-88913825) 1 [13]]; [Mo (-83013) 1 [6; 6]; Mo (-686493) 4 [5; 7]; Mo (-761805) 4 [4; 8]; Mo (-461175) 2 [3; 9]; Mo (-316173) 1 [2; 10]; Mo (-532389) 1 [1; 11]]];
  [[Mo 715 1 [8]]; [Mo (-12155) 1 [9]]; [Mo 109395 1 [10]]; [Mo (-692835) 1 [11]]; [Mo 3464175 1 [12]]; [Mo (-14549535) 1 [13]]];
  [[Mo 1 6 [2; 2; 2]; Mo 5 4 [1; 2; 3]; Mo 7 8 [1; 1; 4]; Mo 490 9 [4; 4]; Mo 245 2 [3; 5]; Mo 176 1 [2; 6]; Mo 4147 12 [1; 7]; Mo (-230945) 1 [10]]; [Mo (-25) 4 [2; 2; 3]; Mo (-125) 16 [1; 3; 3]; Mo (-35) 2 [1; 2; 4]; Mo (-105) 8 [1; 1; 5]; Mo (-3675) 2 [4; 5]; Mo (-4455) 2 [3; 6]; Mo (-13299) 4 [2; 7]; Mo (-13585) 2 [1; 8]; Mo 4849845 1 [11]]; [Mo 645 16 [2; 3; 3]; Mo 361 8 [2; 2; 4]; Mo 899 8 [1; 3; 4]; Mo 539 4 [1; 2; 5]; Mo 843 8 [1; 1; 6]; Mo 7840 1 [5; 5]; Mo 33945 2 [4; 6]; Mo 43197 2 [3; 7]; Mo 33176 1 [2; 8]; Mo 275275 4 [1; 9]; Mo (-53348295) 1 [12]]; [Mo (-2875) 48 [3; 3; 3]; Mo (-3215) 8 [2; 3; 4]; Mo (-4445) 16 [1; 4; 4]; Mo (-1925) 8 [2; 2; 5]; Mo (-595) 1 [1; 3; 5]; Mo (-2985) 4 [1; 2; 6]; Mo (-4785) 8 [1; 1; 7]; Mo (-98280) 1 [5; 6]; Mo (-224675) 2 [4; 7]; Mo (-591305) 4 [3; 8]; Mo (-927355) 4 [2; 9]; Mo (-5773625) 12 [1; 10]; Mo 409003595 1 [13]]; [Mo 11159 16 [3; 3; 4]; Mo 12461 16 [2; 4; 4]; Mo 6669 4 [2; 3; 5]; Mo 9121 4 [1; 4; 5]; Mo 8347 8 [2; 2; 6]; Mo 10223 4 [1; 3; 6]; Mo 13227 4 [1; 2; 7]; Mo 21483 8 [1; 1; 8]; Mo 235760 1 [6; 6]; Mo 1996275 4 [5; 7]; Mo 2371325 4 [4; 8]; Mo 3196765 4 [3; 9]; Mo 5085795 4 [2; 10]; Mo 10465455 4 [1; 11]]; [Mo (-35975) 16 [3; 4; 4]; Mo (-38485) 16 [3; 3; 5]; Mo (-5362) 1 [2; 4; 5]; Mo (-15491) 4 [1; 5; 5]; Mo (-6005) 1 [2; 3; 6]; Mo (-16217) 2 [1; 4; 6]; Mo (-30993) 8 [2; 2; 7]; Mo (-37545) 4 [1; 3; 7]; Mo (-49665) 4 [1; 2; 8]; Mo (-81081) 8 [1; 1; 9]; Mo (-7840833) 4 [6; 7]; Mo (-2162600) 1 [5; 8]; Mo (-10566985) 4 [4; 9]; Mo (-14502345) 4 [3; 10]; Mo (-23281687) 4 [2; 11]; Mo (-47251347) 4 [1; 12]]];
  [[Mo 35 2 [3; 4]; Mo 21 1 [2; 5]; Mo 33 1 [1; 6]; Mo 12155 1 [9]]; [Mo (-245) 2 [4; 4]; Mo (-525) 2 [3; 5]; Mo (-330) 1 [2; 6]; Mo (-2145) 4 [1; 7]; Mo (-230945) 1 [10]]; [Mo 3815 2 [4; 5]; Mo 4281 2 [3; 6]; Mo 11121 4 [2; 7]; Mo 18447 4 [1; 8]; Mo 2309450 1 [11]]; [Mo (-5145) 1 [5; 5]; Mo (-21555) 2 [4; 6]; Mo (-49995) 4 [3; 7]; Mo (-66495) 4 [2; 8]; Mo (-27885) 1 [1; 9]; Mo (-16166150) 1 [12]]; [Mo 45330 1 [5; 6]; Mo 196299 4 [4; 7]; Mo 233277 4 [3; 8]; Mo 78936 1 [2; 9]; Mo 132990 1 [1; 10]; Mo 88913825 1 [13]]; [Mo (-83013) 1 [6; 6]; Mo (-686493) 4 [5; 7]; Mo (-761805) 4 [4; 8]; Mo (-461175) 2 [3; 9]; Mo (-316173) 1 [2; 10]; Mo (-532389) 1 [1; 11]]]];
 [[[Mo 49 2 [4; 4]; Mo 105 2 [3; 5]; Mo 66 1 [2; 6]; Mo 429 4 [1; 7]; Mo (-46189) 1 [10]]; [Mo (-1617) 2 [4; 5]; Mo (-1815) 2 [3; 6]; Mo (-4719) 4 [2; 7]; Mo (-7865) 4 [1; 8]; Mo 969969 1 [11]]; [Mo 6909 2 [5; 5]; Mo 14475 2 [4; 6]; Mo 16797 2 [3; 7]; Mo 44759 4 [2; 8]; Mo 37895 2 [1; 9]; Mo (-10669659) 1 [12]]; [Mo (-42735) 1 [5; 6]; Mo (-92565) 2 [4; 7]; Mo (-55055) 1 [3; 8]; Mo (-149435) 2 [2; 9]; Mo (-255255) 2 [1; 10]; Mo 81800719 1 [13]]; [Mo 205485 2 [6; 6]; Mo 849795 4 [5; 7]; Mo 235895 1 [4; 8]; Mo 286000 1 [3; 9]; Mo 787215 2 [2; 10]; Mo 1349205 2 [1; 11]]];
  [[Mo 2431 1 [9]]; [Mo (-46189) 1 [10]]; [Mo 461890 1 [11]]; [Mo (-3233230) 1 [12]]; [Mo 17782765 1 [13]]];
  [[Mo 5 4 [2; 2; 3]; Mo 25 16 [1; 3; 3]; Mo 7 2 [1; 2; 4]; Mo 21 8 [1; 1; 5]; Mo 735 2 [4; 5]; Mo 891 2 [3; 6]; Mo 13299 20 [2; 7]; Mo 5291 4 [1; 8]; Mo (-969969) 1 [11]]; [Mo (-275) 16 [2; 3; 3]; Mo (-77) 4 [2; 2; 4]; Mo (-385) 8 [1; 3; 4]; Mo (-231) 4 [1; 2; 5]; Mo (-363) 8 [1; 1; 6]; Mo (-6615) 2 [5; 5]; Mo (-7161) 1 [4; 6]; Mo (-36465) 4 [3; 7]; Mo (-27885) 2 [2; 8]; Mo (-114257) 4 [1; 9]; Mo 22309287 1 [12]]; [Mo 325 8 [3; 3; 3]; Mo 2183 8 [2; 3; 4]; Mo 3045 16 [1; 4; 4]; Mo 1309 8 [2; 2; 5]; Mo 1631 4 [1; 3; 5]; Mo 2049 4 [1; 2; 6]; Mo 6633 16 [1; 1; 7]; Mo 65394 1 [5; 6]; Mo 299079 4 [4; 7]; Mo 393393 4 [3; 8]; Mo 613327 4 [2; 9]; Mo 1271413 4 [1; 10]; Mo (-267711444) 1 [13]]; [Mo (-5335) 8 [3; 3; 4]; Mo (-11935) 16 [2; 4; 4]; Mo (-6391) 4 [2; 3; 5]; Mo (-8855) 4 [1; 4; 5]; Mo (-8019) 8 [2; 2; 6]; Mo (-9933) 4 [1; 3; 6]; Mo (-25773) 8 [1; 2; 7]; Mo (-42471) 16 [1; 1; 8]; Mo (-438669) 2 [6; 6]; Mo (-1857471) 4 [5; 7]; Mo (-2206919) 4 [4; 8]; Mo (-1485341) 2 [3; 9]; Mo (-4699123) 4 [2; 10]; Mo (-9745879) 4 [1; 11]]; [Mo 22655 8 [3; 4; 4]; Mo 48507 16 [3; 3; 5]; Mo 27097 4 [2; 4; 5]; Mo 19915 4 [1; 5; 5]; Mo 30379 4 [2; 3; 6]; Mo 41711 4 [1; 4; 6]; Mo 78681 16 [2; 2; 7]; Mo 96693 8 [1; 3; 7]; Mo 128403 8 [1; 2; 8]; Mo 106821 8 [1; 1; 9]; Mo 2385075 1 [6; 7]; Mo 5263863 2 [5; 8]; Mo 3214640 1 [4; 9]; Mo 4401397 1 [3; 10]; Mo 28138825 4 [2; 11]; Mo 57967195 4 [1; 12]]];
  [[Mo 49 2 [4; 4]; Mo 105 2 [3; 5]; Mo 66 1 [2; 6]; Mo 429 4 [1; 7]; Mo 46189 1 [10]]; [Mo (-1617) 2 [4; 5]; Mo (-1815) 2 [3; 6]; Mo (-4719) 4 [2; 7]; Mo (-7865) 4 [1; 8]; Mo (-969969) 1 [11]]; [Mo 6909 2 [5; 5]; Mo 14475 2 [4; 6]; Mo 16797 2 [3; 7]; Mo 44759 4 [2; 8]; Mo 37895 2 [1; 9]; Mo 10669659 1 [12]]; [Mo (-42735) 1 [5; 6]; Mo (-92565) 2 [4; 7]; Mo (-55055) 1 [3; 8]; Mo (-149435) 2 [2; 9]; Mo (-255255) 2 [1; 10]; Mo (-81800719) 1 [13]]; [Mo 205485 2 [6; 6]; Mo 849795 4 [5; 7]; Mo 235895 1 [4; 8]; Mo 286000 1 [3; 9]; Mo 787215 2 [2; 10]; Mo 1349205 2 [1; 11]]]];
 [[[Mo 147 1 [4; 5]; Mo 165 1 [3; 6]; Mo 429 2 [2; 7]; Mo 715 2 [1; 8]; Mo (-176358) 1 [11]]; [Mo (-1323) 1 [5; 5]; Mo (-2772) 1 [4; 6]; Mo (-6435) 2 [3; 7]; Mo (-4290) 1 [2; 8]; Mo (-7293) 1 [1; 9]; Mo 4056234 1 [12]]; [Mo 25788 1 [5; 6]; Mo 55869 2 [4; 7]; Mo 66495 2 [3; 8]; Mo 45188 1 [2; 9]; Mo 77792 1 [1; 10]; Mo (-48674808) 1 [13]]; [Mo (-86625) 1 [6; 6]; Mo (-358281) 2 [5; 7]; Mo (-397969) 2 [4; 8]; Mo (-482911) 2 [3; 9]; Mo (-333047) 1 [2; 10]; Mo (-1154725) 2 [1; 11]]];
  [[Mo 8398 1 [10]]; [Mo (-176358) 1 [11]]; [Mo 1939938 1 [12]]; [Mo (-14872858) 1 [13]]];
  [[Mo 25 8 [2; 3; 3]; Mo 7 2 [2; 2; 4]; Mo 35 4 [1; 3; 4]; Mo 21 2 [1; 2; 5]; Mo 33 4 [1; 1; 6]; Mo 6615 11 [5; 5]; Mo 1302 1 [4; 6]; Mo 3315 2 [3; 7]; Mo 2535 1 [2; 8]; Mo 5083 1 [1; 9]; Mo (-4056234) 1 [12]]; [Mo (-125) 8 [3; 3; 3]; Mo (-105) 1 [2; 3; 4]; Mo (-147) 2 [1; 4; 4]; Mo (-63) 1 [2; 2; 5]; Mo (-315) 2 [1; 3; 5]; Mo (-198) 1 [1; 2; 6]; Mo (-1287) 8 [1; 1; 7]; Mo (-24948) 1 [5; 6]; Mo (-57057) 2 [4; 7]; Mo (-75075) 2 [3; 8]; Mo (-58344) 1 [2; 9]; Mo (-239343) 2 [1; 10]; Mo 101405850 1 [13]]; [Mo 3245 8 [3; 3; 4]; Mo 3633 8 [2; 4; 4]; Mo 973 1 [2; 3; 5]; Mo 1358 1 [1; 4; 5]; Mo 2445 4 [2; 2; 6]; Mo 1524 1 [1; 3; 6]; Mo 1980 1 [1; 2; 7]; Mo 3289 2 [1; 1; 8]; Mo 131355 1 [6; 6]; Mo 278124 1 [5; 7]; Mo 661089 2 [4; 8]; Mo 444873 1 [3; 9]; Mo 1401361 2 [2; 10]; Mo 2901509 2 [1; 11]]; [Mo (-19313) 8 [3; 4; 4]; Mo (-20685) 8 [3; 3; 5]; Mo (-11571) 2 [2; 4; 5]; Mo (-17199) 4 [1; 5; 5]; Mo (-12981) 2 [2; 3; 6]; Mo (-18015) 2 [1; 4; 6]; Mo (-33693) 8 [2; 2; 7]; Mo (-83589) 8 [1; 3; 7]; Mo (-55627) 4 [1; 2; 8]; Mo (-93665) 8 [1; 1; 9]; Mo (-1988910) 1 [6; 7]; Mo (-2195193) 1 [5; 8]; Mo (-2681965) 1 [4; 9]; Mo (-7337863) 2 [3; 10]; Mo (-11677419) 2 [2; 11]; Mo (-24190439) 2 [1; 12]]];
  [[Mo 147 1 [4; 5]; Mo 165 1 [3; 6]; Mo 429 2 [2; 7]; Mo 715 2 [1; 8]; Mo 176358 1 [11]]; [Mo (-1323) 1 [5; 5]; Mo (-2772) 1 [4; 6]; Mo (-6435) 2 [3; 7]; Mo (-4290) 1 [2; 8]; Mo (-7293) 1 [1; 9]; Mo (-4056234) 1 [12]]; [Mo 25788 1 [5; 6]; Mo 55869 2 [4; 7]; Mo 66495 2 [3; 8]; Mo 45188 1 [2; 9]; Mo 77792 1 [1; 10]; Mo 48674808 1 [13]]; [Mo (-86625) 1 [6; 6]; Mo (-358281) 2 [5; 7]; Mo (-397969) 2 [4; 8]; Mo (-482911) 2 [3; 9]; Mo (-333047) 1 [2; 10]; Mo (-1154725) 2 [1; 11]]]];
 [[[Mo 441 2 [5; 5]; Mo 462 1 [4; 6]; Mo 2145 4 [3; 7]; Mo 715 1 [2; 8]; Mo 2431 2 [1; 9]; Mo (-676039) 1 [12]]; [Mo (-9009) 1 [5; 6]; Mo (-39039) 4 [4; 7]; Mo (-46475) 4 [3; 8]; Mo (-31603) 2 [2; 9]; Mo (-54587) 2 [1; 10]; Mo 16900975 1 [13]]; [Mo 94941 2 [6; 6]; Mo 98175 1 [5; 7]; Mo 436293 4 [4; 8]; Mo 132418 1 [3; 9]; Mo 365755 2 [2; 10]; Mo 319124 1 [1; 11]]];
  [[Mo 29393 1 [11]]; [Mo (-676039) 1 [12]]; [Mo 8112468 1 [13]]];
  [[Mo 125 48 [3; 3; 3]; Mo 35 2 [2; 3; 4]; Mo 49 4 [1; 4; 4]; Mo 21 2 [2; 2; 5]; Mo 105 4 [1; 3; 5]; Mo 33 1 [1; 2; 6]; Mo 429 16 [1; 1; 7]; Mo 4158 1 [5; 6]; Mo 19019 4 [4; 7]; Mo 25025 4 [3; 8]; Mo 9724 1 [2; 9]; Mo 58786 3 [1; 10]; Mo (-16900975) 1 [13]]; [Mo (-2275) 16 [3; 3; 4]; Mo (-637) 4 [2; 4; 4]; Mo (-1365) 4 [2; 3; 5]; Mo (-1911) 4 [1; 4; 5]; Mo (-429) 2 [2; 2; 6]; Mo (-2145) 4 [1; 3; 6]; Mo (-5577) 8 [1; 2; 7]; Mo (-9295) 16 [1; 1; 8]; Mo (-45738) 1 [6; 6]; Mo (-387387) 4 [5; 7]; Mo (-115115) 1 [4; 8]; Mo (-619905) 4 [3; 9]; Mo (-243542) 1 [2; 10]; Mo (-499681) 1 [1; 11]]; [Mo 21301 16 [3; 4; 4]; Mo 5705 4 [3; 3; 5]; Mo 12775 4 [2; 4; 5]; Mo 9555 4 [1; 5; 5]; Mo 14337 4 [2; 3; 6]; Mo 20019 4 [1; 4; 6]; Mo 37257 16 [2; 2; 7]; Mo 5808 1 [1; 3; 7]; Mo 61919 8 [1; 2; 8]; Mo 52481 8 [1; 1; 9]; Mo 4331943 4 [6; 7]; Mo 4781777 4 [5; 8]; Mo 5843695 4 [4; 9]; Mo 7994233 4 [3; 10]; Mo 3170245 1 [2; 11]; Mo 6554639 1 [1; 12]]];
  [[Mo 441 2 [5; 5]; Mo 462 1 [4; 6]; Mo 2145 4 [3; 7]; Mo 715 1 [2; 8]; Mo 2431 2 [1; 9]; Mo 676039 1 [12]]; [Mo (-9009) 1 [5; 6]; Mo (-39039) 4 [4; 7]; Mo (-46475) 4 [3; 8]; Mo (-31603) 2 [2; 9]; Mo (-54587) 2 [1; 10]; Mo (-16900975) 1 [13]]; [Mo 94941 2 [6; 6]; Mo 98175 1 [5; 7]; Mo 436293 4 [4; 8]; Mo 132418 1 [3; 9]; Mo 365755 2 [2; 10]; Mo 319124 1 [1; 11]]]];
 [[[Mo 1386 1 [5; 6]; Mo 3003 2 [4; 7]; Mo 3575 2 [3; 8]; Mo 2431 1 [2; 9]; Mo 4199 1 [1; 10]; Mo (-2600150) 1 [13]]; [Mo (-15246) 1 [6; 6]; Mo (-63063) 2 [5; 7]; Mo (-35035) 1 [4; 8]; Mo (-85085) 2 [3; 9]; Mo (-58786) 1 [2; 10]; Mo (-205751) 2 [1; 11]]];
  [[Mo 104006 1 [12]]; [Mo (-2600150) 1 [13]]];
  [[Mo 175 8 [3; 3; 4]; Mo 49 2 [2; 4; 4]; Mo 105 2 [2; 3; 5]; Mo 147 2 [1; 4; 5]; Mo 33 1 [2; 2; 6]; Mo 165 2 [1; 3; 6]; Mo 429 4 [1; 2; 7]; Mo 715 8 [1; 1; 8]; Mo 91476 13 [6; 6]; Mo 29799 2 [5; 7]; Mo 17710 1 [4; 8]; Mo 47685 2 [3; 9]; Mo 37468 1 [2; 10]; Mo 151487 2 [1; 11]]; [Mo (-1715) 4 [3; 4; 4]; Mo (-3675) 8 [3; 3; 5]; Mo (-1029) 1 [2; 4; 5]; Mo (-3087) 4 [1; 5; 5]; Mo (-1155) 1 [2; 3; 6]; Mo (-1617) 1 [1; 4; 6]; Mo (-3003) 4 [2; 2; 7]; Mo (-15015) 8 [1; 3; 7]; Mo (-5005) 2 [1; 2; 8]; Mo (-17017) 8 [1; 1; 9]; Mo (-693693) 2 [6; 7]; Mo (-765765) 2 [5; 8]; Mo (-935935) 2 [4; 9]; Mo (-1280695) 2 [3; 10]; Mo (-2028117) 2 [2; 11]; Mo (-2080120) 1 [1; 12]]];
  [[Mo 1386 1 [5; 6]; Mo 3003 2 [4; 7]; Mo 3575 2 [3; 8]; Mo 2431 1 [2; 9]; Mo 4199 1 [1; 10]; Mo 2600150 1 [13]]; [Mo (-15246) 1 [6; 6]; Mo (-63063) 2 [5; 7]; Mo (-35035) 1 [4; 8]; Mo (-85085) 2 [3; 9]; Mo (-58786) 1 [2; 10]; Mo (-205751) 2 [1; 11]]]];
 [[[Mo 2178 1 [6; 6]; Mo 9009 2 [5; 7]; Mo 5005 1 [4; 8]; Mo 12155 2 [3; 9]; Mo 8398 1 [2; 10]; Mo 29393 2 [1; 11]]];
  [[Mo 371450 1 [13]]];
  [[Mo 245 4 [3; 4; 4]; Mo 525 8 [3; 3; 5]; Mo 147 1 [2; 4; 5]; Mo 441 4 [1; 5; 5]; Mo 165 1 [2; 3; 6]; Mo 231 1 [1; 4; 6]; Mo 429 4 [2; 2; 7]; Mo 2145 8 [1; 3; 7]; Mo 715 2 [1; 2; 8]; Mo 2431 8 [1; 1; 9]; Mo 99099 2 [6; 7]; Mo 109395 2 [5; 8]; Mo 133705 2 [4; 9]; Mo 1280695 14 [3; 10]; Mo 289731 2 [2; 11]; Mo 586891 2 [1; 12]]];
  [[Mo 2178 1 [6; 6]; Mo 9009 2 [5; 7]; Mo 5005 1 [4; 8]; Mo 12155 2 [3; 9]; Mo 8398 1 [2; 10]; Mo 29393 2 [1; 11]]]]].
(** matslise_formulas.cpp: tDelta(3, 0..16) *)
Definition tdelta_row3 : list (list hentry) := [
 [[];
  [];
  [];
  []];
 [[];
  [];
  [];
  []];
 [[];
  [];
  [];
  []];
 [[];
  [];
  [];
  []];
 [[];
  [];
  [];
  []];
 [[[Mo 5 2 [3]]; [Mo 1 4 [1; 1]; Mo (-35) 2 [4]]; [Mo (-1) 1 [1; 2]; Mo 70 1 [5]]; [Mo 3 4 [2; 2]; Mo 7 4 [1; 3]; Mo (-210) 1 [6]]; [Mo (-9) 4 [2; 3]; Mo (-11) 4 [1; 4]; Mo 525 1 [7]]; [Mo 3 2 [3; 3]; Mo 13 4 [2; 4]; Mo 4 1 [1; 5]; Mo (-1155) 1 [8]]; [Mo (-4) 1 [3; 4]; Mo (-9) 2 [2; 5]; Mo (-11) 2 [1; 6]; Mo 2310 1 [9]]; [Mo 5 2 [4; 4]; Mo 21 4 [3; 5]; Mo 6 1 [2; 6]; Mo 29 4 [1; 7]; Mo (-4290) 1 [10]]; [Mo (-25) 4 [4; 5]; Mo (-27) 4 [3; 6]; Mo (-31) 4 [2; 7]; Mo (-37) 4 [1; 8]; Mo 15015 2 [11]]; [Mo 15 4 [5; 5]; Mo 31 4 [4; 6]; Mo 17 2 [3; 7]; Mo 39 4 [2; 8]; Mo 23 2 [1; 9]; Mo (-25025) 2 [12]]; [Mo (-9) 1 [5; 6]; Mo (-19) 2 [4; 7]; Mo (-21) 2 [3; 8]; Mo (-12) 1 [2; 9]; Mo (-14) 1 [1; 10]; Mo 20020 1 [13]]; [Mo 21 4 [6; 6]; Mo 43 4 [5; 7]; Mo 23 2 [4; 8]; Mo 51 4 [3; 9]; Mo 29 2 [2; 10]; Mo 67 4 [1; 11]]];
  [[Mo (-1) 2 [2]]; [Mo 5 2 [3]]; [Mo 1 8 [1; 1]; Mo (-15) 2 [4]]; [Mo (-1) 4 [1; 2]; Mo 35 2 [5]]; [Mo 1 8 [2; 2]; Mo 1 4 [1; 3]; Mo (-35) 1 [6]]; [Mo (-1) 4 [2; 3]; Mo (-1) 4 [1; 4]; Mo 63 1 [7]]; [Mo 1 8 [3; 3]; Mo 1 4 [2; 4]; Mo 1 4 [1; 5]; Mo (-105) 1 [8]]; [Mo (-1) 4 [3; 4]; Mo (-1) 4 [2; 5]; Mo (-1) 4 [1; 6]; Mo 165 1 [9]]; [Mo 1 8 [4; 4]; Mo 1 4 [3; 5]; Mo 1 4 [2; 6]; Mo 1 4 [1; 7]; Mo (-495) 2 [10]]; [Mo (-1) 4 [4; 5]; Mo (-1) 4 [3; 6]; Mo (-1) 4 [2; 7]; Mo (-1) 4 [1; 8]; Mo 715 2 [11]]; [Mo 1 8 [5; 5]; Mo 1 4 [4; 6]; Mo 1 4 [3; 7]; Mo 1 4 [2; 8]; Mo 1 4 [1; 9]; Mo (-1001) 2 [12]]; [Mo (-1) 4 [5; 6]; Mo (-1) 4 [4; 7]; Mo (-1) 4 [3; 8]; Mo (-1) 4 [2; 9]; Mo (-1) 4 [1; 10]; Mo 1365 2 [13]]];
  [[Mo (-7) 24 [1; 1]; Mo 35 2 [4]]; [Mo 5 2 [1; 2]; Mo (-315) 2 [5]]; [Mo (-27) 8 [2; 2]; Mo (-29) 4 [1; 3]; Mo 1575 2 [6]]; [Mo (-1) 48 [1; 1; 1]; Mo 15 1 [2; 3]; Mo 205 12 [1; 4]; Mo (-5775) 2 [7]]; [Mo 1 16 [1; 1; 2]; Mo (-57) 4 [3; 3]; Mo (-59) 2 [2; 4]; Mo (-35) 1 [1; 5]; Mo 17325 2 [8]]; [Mo (-1) 16 [1; 2; 2]; Mo (-1) 16 [1; 1; 3]; Mo 50 1 [3; 4]; Mo 213 4 [2; 5]; Mo 259 4 [1; 6]; Mo (-45045) 2 [9]]; [Mo 1 48 [2; 2; 2]; Mo 1 8 [1; 2; 3]; Mo 1 16 [1; 1; 4]; Mo (-485) 12 [4; 4]; Mo (-165) 2 [3; 5]; Mo (-90) 1 [2; 6]; Mo (-665) 6 [1; 7]; Mo 105105 2 [10]]; [Mo (-1) 16 [2; 2; 3]; Mo (-1) 16 [1; 3; 3]; Mo (-1) 8 [1; 2; 4]; Mo (-1) 16 [1; 1; 5]; Mo 125 1 [4; 5]; Mo 519 4 [3; 6]; Mo 577 4 [2; 7]; Mo 357 2 [1; 8]; Mo (-225225) 2 [11]]; [Mo 1 16 [2; 3; 3]; Mo 1 16 [2; 2; 4]; Mo 1 8 [1; 3; 4]; Mo 1 8 [1; 2; 5]; Mo 1 16 [1; 1; 6]; Mo (-735) 8 [5; 5]; Mo (-745) 4 [4; 6]; Mo (-785) 4 [3; 7]; Mo (-885) 4 [2; 8]; Mo (-1095) 4 [1; 9]; Mo 225225 1 [12]]; [Mo (-1) 48 [3; 3; 3]; Mo (-1) 8 [2; 3; 4]; Mo (-1) 16 [1; 4; 4]; Mo (-1) 16 [2; 2; 5]; Mo (-1) 8 [1; 3; 5]; Mo (-1) 8 [1; 2; 6]; Mo (-1) 16 [1; 1; 7]; Mo 525 2 [5; 6]; Mo 3229 12 [4; 7]; Mo 1149 4 [3; 8]; Mo 327 1 [2; 9]; Mo 1210 3 [1; 10]; Mo (-425425) 1 [13]]; [Mo 1 16 [3; 3; 4]; Mo 1 16 [2; 4; 4]; Mo 1 8 [2; 3; 5]; Mo 1 8 [1; 4; 5]; Mo 1 16 [2; 2; 6]; Mo 1 8 [1; 3; 6]; Mo 1 8 [1; 2; 7]; Mo 1 16 [1; 1; 8]; Mo (-1449) 8 [6; 6]; Mo (-1463) 4 [5; 7]; Mo (-1515) 4 [4; 8]; Mo (-1635) 4 [3; 9]; Mo (-1873) 4 [2; 10]; Mo (-2299) 4 [1; 11]]; [Mo (-1) 16 [3; 4; 4]; Mo (-1) 16 [3; 3; 5]; Mo (-1) 8 [2; 4; 5]; Mo (-1) 16 [1; 5; 5]; Mo (-1) 8 [2; 3; 6]; Mo (-1) 8 [1; 4; 6]; Mo (-1) 16 [2; 2; 7]; Mo (-1) 8 [1; 3; 7]; Mo (-1) 8 [1; 2; 8]; Mo (-1) 16 [1; 1; 9]; Mo 490 1 [6; 7]; Mo 1995 4 [5; 8]; Mo 2085 4 [4; 9]; Mo 1135 2 [3; 10]; Mo 1305 2 [2; 11]; Mo 3185 4 [1; 12]]];
  [[Mo (-5) 2 [3]]; [Mo (-1) 4 [1; 1]; Mo 35 2 [4]]; [Mo 1 1 [1; 2]; Mo (-70) 1 [5]]; [Mo (-3) 4 [2; 2]; Mo (-7) 4 [1; 3]; Mo 210 1 [6]]; [Mo 9 4 [2; 3]; Mo 11 4 [1; 4]; Mo (-525) 1 [7]]; [Mo (-3) 2 [3; 3]; Mo (-13) 4 [2; 4]; Mo (-4) 1 [1; 5]; Mo 1155 1 [8]]; [Mo 4 1 [3; 4]; Mo 9 2 [2; 5]; Mo 11 2 [1; 6]; Mo (-2310) 1 [9]]; [Mo (-5) 2 [4; 4]; Mo (-21) 4 [3; 5]; Mo (-6) 1 [2; 6]; Mo (-29) 4 [1; 7]; Mo 4290 1 [10]]; [Mo 25 4 [4; 5]; Mo 27 4 [3; 6]; Mo 31 4 [2; 7]; Mo 37 4 [1; 8]; Mo (-15015) 2 [11]]; [Mo (-15) 4 [5; 5]; Mo (-31) 4 [4; 6]; Mo (-17) 2 [3; 7]; Mo (-39) 4 [2; 8]; Mo (-23) 2 [1; 9]; Mo 25025 2 [12]]; [Mo 9 1 [5; 6]; Mo 19 2 [4; 7]; Mo 21 2 [3; 8]; Mo 12 1 [2; 9]; Mo 14 1 [1; 10]; Mo (-20020) 1 [13]]; [Mo (-21) 4 [6; 6]; Mo (-43) 4 [5; 7]; Mo (-23) 2 [4; 8]; Mo (-51) 4 [3; 9]; Mo (-29) 2 [2; 10]; Mo (-67) 4 [1; 11]]]];
 [[[Mo (-7) 24 [1; 1]; Mo 35 2 [4]]; [Mo 5 2 [1; 2]; Mo (-315) 2 [5]]; [Mo (-27) 8 [2; 2]; Mo (-29) 4 [1; 3]; Mo 1575 2 [6]]; [Mo (-1) 48 [1; 1; 1]; Mo 15 1 [2; 3]; Mo 205 12 [1; 4]; Mo (-5775) 2 [7]]; [Mo 1 16 [1; 1; 2]; Mo (-57) 4 [3; 3]; Mo (-59) 2 [2; 4]; Mo (-35) 1 [1; 5]; Mo 17325 2 [8]]; [Mo (-1) 16 [1; 2; 2]; Mo (-1) 16 [1; 1; 3]; Mo 50 1 [3; 4]; Mo 213 4 [2; 5]; Mo 259 4 [1; 6]; Mo (-45045) 2 [9]]; [Mo 1 48 [2; 2; 2]; Mo 1 8 [1; 2; 3]; Mo 1 16 [1; 1; 4]; Mo (-485) 12 [4; 4]; Mo (-165) 2 [3; 5]; Mo (-90) 1 [2; 6]; Mo (-665) 6 [1; 7]; Mo 105105 2 [10]]; [Mo (-1) 16 [2; 2; 3]; Mo (-1) 16 [1; 3; 3]; Mo (-1) 8 [1; 2; 4]; Mo (-1) 16 [1; 1; 5]; Mo 125 1 [4; 5]; Mo 519 4 [3; 6]; Mo 577 4 [2; 7]; Mo 357 2 [1; 8]; Mo (-225225) 2 [11]]; [Mo 1 16 [2; 3; 3]; Mo 1 16 [2; 2; 4]; Mo 1 8 [1; 3; 4]; Mo 1 8 [1; 2; 5]; Mo 1 16 [1; 1; 6]; Mo (-735) 8 [5; 5]; Mo (-745) 4 [4; 6]; Mo (-785) 4 [3; 7]; Mo (-885) 4 [2; 8]; Mo (-1095) 4 [1; 9]; Mo 225225 1 [12]]; [Mo (-1) 48 [3; 3; 3]; Mo (-1) 8 [2; 3; 4]; Mo (-1) 16 [1; 4; 4]; Mo (-1) 16 [2; 2; 5]; Mo (-1) 8 [1; 3; 5]; Mo (-1) 8 [1; 2; 6]; Mo (-1) 16 [1; 1; 7]; Mo 525 2 [5; 6]; Mo 3229 12 [4; 7]; Mo 1149 4 [3; 8]; Mo 327 1 [2; 9]; Mo 1210 3 [1; 10]; Mo (-425425) 1 [13]]; [Mo 1 16 [3; 3; 4]; Mo 1 16 [2; 4; 4]; Mo 1 8 [2; 3; 5]; Mo 1 8 [1; 4; 5]; Mo 1 16 [2; 2; 6]; Mo 1 8 [1; 3; 6]; Mo 1 8 [1; 2; 7]; Mo 1 16 [1; 1; 8]; Mo (-1449) 8 [6; 6]; Mo (-1463) 4 [5; 7]; Mo (-1515) 4 [4; 8]; Mo (-1635) 4 [3; 9]; Mo (-1873) 4 [2; 10]; Mo (-2299) 4 [1; 11]]];
  [[Mo (-5) 2 [3]]; [Mo (-1) 4 [1; 1]; Mo 35 2 [4]]; [Mo 1 1 [1; 2]; Mo (-70) 1 [5]]; [Mo (-3) 4 [2; 2]; Mo (-7) 4 [1; 3]; Mo 210 1 [6]]; [Mo 9 4 [2; 3]; Mo 11 4 [1; 4]; Mo (-525) 1 [7]]; [Mo (-3) 2 [3; 3]; Mo (-13) 4 [2; 4]; Mo (-4) 1 [1; 5]; Mo 1155 1 [8]]; [Mo 4 1 [3; 4]; Mo 9 2 [2; 5]; Mo 11 2 [1; 6]; Mo (-2310) 1 [9]]; [Mo (-5) 2 [4; 4]; Mo (-21) 4 [3; 5]; Mo (-6) 1 [2; 6]; Mo (-29) 4 [1; 7]; Mo 4290 1 [10]]; [Mo 25 4 [4; 5]; Mo 27 4 [3; 6]; Mo 31 4 [2; 7]; Mo 37 4 [1; 8]; Mo (-15015) 2 [11]]; [Mo (-15) 4 [5; 5]; Mo (-31) 4 [4; 6]; Mo (-17) 2 [3; 7]; Mo (-39) 4 [2; 8]; Mo (-23) 2 [1; 9]; Mo 25025 2 [12]]; [Mo 9 1 [5; 6]; Mo 19 2 [4; 7]; Mo 21 2 [3; 8]; Mo 12 1 [2; 9]; Mo 14 1 [1; 10]; Mo (-20020) 1 [13]]];
  [[Mo (-5) 2 [1; 2]; Mo 315 2 [5]]; [Mo 15 2 [2; 2]; Mo 65 4 [1; 3]; Mo (-3465) 2 [6]]; [Mo 1 16 [1; 1; 1]; Mo (-225) 4 [2; 3]; Mo (-255) 4 [1; 4]; Mo 10395 1 [7]]; [Mo (-5) 16 [1; 1; 2]; Mo 315 4 [3; 3]; Mo 655 4 [2; 4]; Mo 385 2 [1; 5]; Mo (-45045) 1 [8]]; [Mo 7 16 [1; 2; 2]; Mo 1 2 [1; 1; 3]; Mo (-380) 1 [3; 4]; Mo (-405) 1 [2; 5]; Mo (-490) 1 [1; 6]; Mo 315315 2 [9]]; [Mo (-3) 16 [2; 2; 2]; Mo (-5) 4 [1; 2; 3]; Mo (-3) 4 [1; 1; 4]; Mo 1605 4 [4; 4]; Mo 3285 4 [3; 5]; Mo 1785 2 [2; 6]; Mo 2205 2 [1; 7]; Mo (-945945) 2 [10]]; [Mo 3 4 [2; 2; 3]; Mo 13 16 [1; 3; 3]; Mo 7 4 [1; 2; 4]; Mo 17 16 [1; 1; 5]; Mo (-6275) 4 [4; 5]; Mo (-6525) 4 [3; 6]; Mo (-3605) 2 [2; 7]; Mo (-4515) 2 [1; 8]; Mo 1261260 1 [11]]; [Mo (-15) 16 [2; 3; 3]; Mo (-1) 1 [2; 2; 4]; Mo (-17) 8 [1; 3; 4]; Mo (-19) 8 [1; 2; 5]; Mo (-23) 16 [1; 1; 6]; Mo 2835 2 [5; 5]; Mo 11515 4 [4; 6]; Mo 12125 4 [3; 7]; Mo 6795 2 [2; 8]; Mo 4290 1 [1; 9]; Mo (-3063060) 1 [12]]; [Mo 3 8 [3; 3; 3]; Mo 19 8 [2; 3; 4]; Mo 21 16 [1; 4; 4]; Mo 21 16 [2; 2; 5]; Mo 11 4 [1; 3; 5]; Mo 25 8 [1; 2; 6]; Mo 15 8 [1; 1; 7]; Mo (-9765) 2 [5; 6]; Mo (-20055) 4 [4; 7]; Mo (-21345) 4 [3; 8]; Mo (-12105) 2 [2; 9]; Mo (-15345) 2 [1; 10]; Mo 6891885 1 [13]]; [Mo (-11) 8 [3; 3; 4]; Mo (-23) 16 [2; 4; 4]; Mo (-3) 1 [2; 3; 5]; Mo (-13) 4 [1; 4; 5]; Mo (-27) 16 [2; 2; 6]; Mo (-7) 2 [1; 3; 6]; Mo (-4) 1 [1; 2; 7]; Mo (-19) 8 [1; 1; 8]; Mo 3990 1 [6; 6]; Mo 16135 2 [5; 7]; Mo 33435 4 [4; 8]; Mo 35925 4 [3; 9]; Mo 10285 1 [2; 10]; Mo 52195 4 [1; 11]]; [Mo 13 8 [3; 4; 4]; Mo 27 16 [3; 3; 5]; Mo 7 2 [2; 4; 5]; Mo 31 16 [1; 5; 5]; Mo 15 4 [2; 3; 6]; Mo 4 1 [1; 4; 6]; Mo 17 8 [2; 2; 7]; Mo 35 8 [1; 3; 7]; Mo 5 1 [1; 2; 8]; Mo 47 16 [1; 1; 9]; Mo (-25235) 2 [6; 7]; Mo (-25725) 2 [5; 8]; Mo (-53715) 4 [4; 9]; Mo (-58205) 4 [3; 10]; Mo (-67155) 4 [2; 11]; Mo (-85085) 4 [1; 12]]];
  [[Mo 5 24 [1; 1]; Mo (-35) 2 [4]]; [Mo (-2) 1 [1; 2]; Mo 315 2 [5]]; [Mo 21 8 [2; 2]; Mo 25 4 [1; 3]; Mo (-1575) 2 [6]]; [Mo (-1) 48 [1; 1; 1]; Mo (-12) 1 [2; 3]; Mo (-185) 12 [1; 4]; Mo 5775 2 [7]]; [Mo 1 16 [1; 1; 2]; Mo 45 4 [3; 3]; Mo 49 2 [2; 4]; Mo 65 2 [1; 5]; Mo (-17325) 2 [8]]; [Mo (-1) 16 [1; 2; 2]; Mo (-1) 16 [1; 1; 3]; Mo (-40) 1 [3; 4]; Mo (-183) 4 [2; 5]; Mo (-245) 4 [1; 6]; Mo 45045 2 [9]]; [Mo 1 48 [2; 2; 2]; Mo 1 8 [1; 2; 3]; Mo 1 16 [1; 1; 4]; Mo 385 12 [4; 4]; Mo 135 2 [3; 5]; Mo 159 2 [2; 6]; Mo 637 6 [1; 7]; Mo (-105105) 2 [10]]; [Mo (-1) 16 [2; 2; 3]; Mo (-1) 16 [1; 3; 3]; Mo (-1) 8 [1; 2; 4]; Mo (-1) 16 [1; 1; 5]; Mo (-100) 1 [4; 5]; Mo (-435) 4 [3; 6]; Mo (-521) 4 [2; 7]; Mo (-345) 2 [1; 8]; Mo 225225 2 [11]]; [Mo 1 16 [2; 3; 3]; Mo 1 16 [2; 2; 4]; Mo 1 8 [1; 3; 4]; Mo 1 8 [1; 2; 5]; Mo 1 16 [1; 1; 6]; Mo 585 8 [5; 5]; Mo 605 4 [4; 6]; Mo 673 4 [3; 7]; Mo 813 4 [2; 8]; Mo 1065 4 [1; 9]; Mo (-225225) 1 [12]]; [Mo (-1) 48 [3; 3; 3]; Mo (-1) 8 [2; 3; 4]; Mo (-1) 16 [1; 4; 4]; Mo (-1) 16 [2; 2; 5]; Mo (-1) 8 [1; 3; 5]; Mo (-1) 8 [1; 2; 6]; Mo (-1) 16 [1; 1; 7]; Mo (-210) 1 [5; 6]; Mo (-2669) 12 [4; 7]; Mo (-1005) 4 [3; 8]; Mo (-609) 2 [2; 9]; Mo (-2365) 6 [1; 10]; Mo 425425 1 [13]]; [Mo 1 16 [3; 3; 4]; Mo 1 16 [2; 4; 4]; Mo 1 8 [2; 3; 5]; Mo 1 8 [1; 4; 5]; Mo 1 16 [2; 2; 6]; Mo 1 8 [1; 3; 6]; Mo 1 8 [1; 2; 7]; Mo 1 16 [1; 1; 8]; Mo 1155 8 [6; 6]; Mo 1183 4 [5; 7]; Mo 1275 4 [4; 8]; Mo 1455 4 [3; 9]; Mo 1763 4 [2; 10]; Mo 2255 4 [1; 11]]]];
 [[[Mo (-3) 2 [1; 2]; Mo 189 2 [5]]; [Mo 9 2 [2; 2]; Mo 10 1 [1; 3]; Mo (-2079) 2 [6]]; [Mo 1 16 [1; 1; 1]; Mo (-34) 1 [2; 3]; Mo (-40) 1 [1; 4]; Mo 6237 1 [7]]; [Mo (-5) 16 [1; 1; 2]; Mo 95 2 [3; 3]; Mo 100 1 [2; 4]; Mo 245 2 [1; 5]; Mo (-27027) 1 [8]]; [Mo 7 16 [1; 2; 2]; Mo 1 2 [1; 1; 3]; Mo (-230) 1 [3; 4]; Mo (-250) 1 [2; 5]; Mo (-315) 1 [1; 6]; Mo 189189 2 [9]]; [Mo (-3) 16 [2; 2; 2]; Mo (-5) 4 [1; 2; 3]; Mo (-3) 4 [1; 1; 4]; Mo 485 2 [4; 4]; Mo 500 1 [3; 5]; Mo 1113 2 [2; 6]; Mo 714 1 [1; 7]; Mo (-567567) 2 [10]]; [Mo 3 4 [2; 2; 3]; Mo 13 16 [1; 3; 3]; Mo 7 4 [1; 2; 4]; Mo 17 16 [1; 1; 5]; Mo (-950) 1 [4; 5]; Mo (-1000) 1 [3; 6]; Mo (-1134) 1 [2; 7]; Mo (-1470) 1 [1; 8]; Mo 756756 1 [11]]; [Mo (-15) 16 [2; 3; 3]; Mo (-1) 1 [2; 2; 4]; Mo (-17) 8 [1; 3; 4]; Mo (-19) 8 [1; 2; 5]; Mo (-23) 16 [1; 1; 6]; Mo 1715 2 [5; 5]; Mo 1750 1 [4; 6]; Mo 3743 2 [3; 7]; Mo 2154 1 [2; 8]; Mo 2805 1 [1; 9]; Mo (-1837836) 1 [12]]; [Mo 3 8 [3; 3; 3]; Mo 19 8 [2; 3; 4]; Mo 21 16 [1; 4; 4]; Mo 21 16 [2; 2; 5]; Mo 11 4 [1; 3; 5]; Mo 25 8 [1; 2; 6]; Mo 15 8 [1; 1; 7]; Mo (-5915) 2 [5; 6]; Mo (-6125) 2 [4; 7]; Mo (-6635) 2 [3; 8]; Mo (-7725) 2 [2; 9]; Mo (-10065) 2 [1; 10]; Mo 4135131 1 [13]]; [Mo (-11) 8 [3; 3; 4]; Mo (-23) 16 [2; 4; 4]; Mo (-3) 1 [2; 3; 5]; Mo (-13) 4 [1; 4; 5]; Mo (-27) 16 [2; 2; 6]; Mo (-7) 2 [1; 3; 6]; Mo (-4) 1 [1; 2; 7]; Mo (-19) 8 [1; 1; 8]; Mo 2415 1 [6; 6]; Mo 4900 1 [5; 7]; Mo 10265 2 [4; 8]; Mo 5620 1 [3; 9]; Mo 6600 1 [2; 10]; Mo 8580 1 [1; 11]]];
  [[Mo 1 8 [1; 1]; Mo (-21) 2 [4]]; [Mo (-5) 4 [1; 2]; Mo 189 2 [5]]; [Mo 13 8 [2; 2]; Mo 4 1 [1; 3]; Mo (-945) 2 [6]]; [Mo (-15) 2 [2; 3]; Mo (-10) 1 [1; 4]; Mo 3465 2 [7]]; [Mo 7 1 [3; 3]; Mo 31 2 [2; 4]; Mo 85 4 [1; 5]; Mo (-10395) 2 [8]]; [Mo (-25) 1 [3; 4]; Mo (-117) 4 [2; 5]; Mo (-161) 4 [1; 6]; Mo 27027 2 [9]]; [Mo 20 1 [4; 4]; Mo 85 2 [3; 5]; Mo 205 4 [2; 6]; Mo 70 1 [1; 7]; Mo (-63063) 2 [10]]; [Mo (-125) 2 [4; 5]; Mo (-69) 1 [3; 6]; Mo (-169) 2 [2; 7]; Mo (-114) 1 [1; 8]; Mo 135135 2 [11]]; [Mo 365 8 [5; 5]; Mo 95 1 [4; 6]; Mo 215 2 [3; 7]; Mo 265 2 [2; 8]; Mo 705 4 [1; 9]; Mo (-135135) 1 [12]]; [Mo (-525) 4 [5; 6]; Mo (-281) 2 [4; 7]; Mo (-323) 2 [3; 8]; Mo (-797) 4 [2; 9]; Mo (-1045) 4 [1; 10]; Mo 255255 1 [13]]];
  [[Mo (-171) 40 [2; 2]; Mo (-19) 2 [1; 3]; Mo 2079 2 [6]]; [Mo (-1) 24 [1; 1; 1]; Mo 285 4 [2; 3]; Mo 84 1 [1; 4]; Mo (-27027) 2 [7]]; [Mo 23 48 [1; 1; 2]; Mo (-1311) 8 [3; 3]; Mo (-1381) 4 [2; 4]; Mo (-847) 2 [1; 5]; Mo 189189 2 [8]]; [Mo (-1) 1 [1; 2; 2]; Mo (-71) 48 [1; 1; 3]; Mo 4611 4 [3; 4]; Mo 5019 4 [2; 5]; Mo 3171 2 [1; 6]; Mo (-945945) 2 [9]]; [Mo 1 384 [1; 1; 1; 1]; Mo 9 16 [2; 2; 2]; Mo 9 2 [1; 2; 3]; Mo 59 16 [1; 1; 4]; Mo (-13155) 8 [4; 4]; Mo (-13569) 4 [3; 5]; Mo (-3780) 1 [2; 6]; Mo (-9765) 2 [1; 7]; Mo 1891890 1 [10]]; [Mo (-1) 96 [1; 1; 1; 2]; Mo (-51) 16 [2; 2; 3]; Mo (-31) 8 [1; 3; 3]; Mo (-115) 12 [1; 2; 4]; Mo (-377) 48 [1; 1; 5]; Mo 33285 4 [4; 5]; Mo 17535 2 [3; 6]; Mo 49749 5 [2; 7]; Mo 26103 2 [1; 8]; Mo (-6432426) 1 [11]]; [Mo 1 64 [1; 1; 2; 2]; Mo 1 96 [1; 1; 1; 3]; Mo 81 16 [2; 3; 3]; Mo 97 16 [2; 2; 4]; Mo 83 6 [1; 3; 4]; Mo 75 4 [1; 2; 5]; Mo 179 12 [1; 1; 6]; Mo (-75075) 8 [5; 5]; Mo (-19159) 1 [4; 6]; Mo (-20510) 1 [3; 7]; Mo (-23625) 1 [2; 8]; Mo (-62601) 2 [1; 9]; Mo 19297278 1 [12]]; [Mo (-1) 96 [1; 2; 2; 2]; Mo (-1) 32 [1; 1; 2; 3]; Mo (-1) 96 [1; 1; 1; 4]; Mo (-39) 16 [3; 3; 3]; Mo (-135) 8 [2; 3; 4]; Mo (-85) 8 [1; 4; 4]; Mo (-177) 16 [2; 2; 5]; Mo (-97) 4 [1; 3; 5]; Mo (-271) 8 [1; 2; 6]; Mo (-26) 1 [1; 1; 7]; Mo 78897 2 [5; 6]; Mo 81753 2 [4; 7]; Mo 44316 1 [3; 8]; Mo 51678 1 [2; 9]; Mo 137709 2 [1; 10]; Mo (-52378326) 1 [13]]; [Mo 1 384 [2; 2; 2; 2]; Mo 1 32 [1; 2; 2; 3]; Mo 1 64 [1; 1; 3; 3]; Mo 1 32 [1; 1; 2; 4]; Mo 1 96 [1; 1; 1; 5]; Mo 179 16 [3; 3; 4]; Mo 599 48 [2; 4; 4]; Mo 225 8 [2; 3; 5]; Mo 100 3 [1; 4; 5]; Mo 153 8 [2; 2; 6]; Mo 327 8 [1; 3; 6]; Mo 1373 24 [1; 2; 7]; Mo 509 12 [1; 1; 8]; Mo (-38493) 1 [6; 6]; Mo (-156247) 2 [5; 7]; Mo (-163793) 2 [4; 8]; Mo (-179451) 2 [3; 9]; Mo (-422763) 4 [2; 10]; Mo (-141141) 1 [1; 11]]; [Mo (-1) 96 [2; 2; 2; 3]; Mo (-1) 32 [1; 2; 3; 3]; Mo (-1) 32 [1; 2; 2; 4]; Mo (-1) 32 [1; 1; 3; 4]; Mo (-1) 32 [1; 1; 2; 5]; Mo (-1) 96 [1; 1; 1; 6]; Mo (-755) 48 [3; 4; 4]; Mo (-279) 16 [3; 3; 5]; Mo (-303) 8 [2; 4; 5]; Mo (-95) 4 [1; 5; 5]; Mo (-183) 4 [2; 3; 6]; Mo (-1247) 24 [1; 4; 6]; Mo (-251) 8 [2; 2; 7]; Mo (-1583) 24 [1; 3; 7]; Mo (-731) 8 [1; 2; 8]; Mo (-197) 3 [1; 1; 9]; Mo 143325 1 [6; 7]; Mo 294147 2 [5; 8]; Mo 155635 1 [4; 9]; Mo 688193 4 [3; 10]; Mo 817245 4 [2; 11]; Mo 545545 2 [1; 12]]];
  [[Mo 1 1 [1; 2]; Mo (-189) 2 [5]]; [Mo (-3) 1 [2; 2]; Mo (-15) 2 [1; 3]; Mo 2079 2 [6]]; [Mo 1 16 [1; 1; 1]; Mo 47 2 [2; 3]; Mo 65 2 [1; 4]; Mo (-6237) 1 [7]]; [Mo (-5) 16 [1; 1; 2]; Mo (-65) 2 [3; 3]; Mo (-145) 2 [2; 4]; Mo (-105) 1 [1; 5]; Mo 27027 1 [8]]; [Mo 7 16 [1; 2; 2]; Mo 1 2 [1; 1; 3]; Mo 160 1 [3; 4]; Mo 190 1 [2; 5]; Mo 280 1 [1; 6]; Mo (-189189) 2 [9]]; [Mo (-3) 16 [2; 2; 2]; Mo (-5) 4 [1; 2; 3]; Mo (-3) 4 [1; 1; 4]; Mo (-335) 2 [4; 4]; Mo (-715) 2 [3; 5]; Mo (-441) 1 [2; 6]; Mo (-651) 1 [1; 7]; Mo 567567 2 [10]]; [Mo 3 4 [2; 2; 3]; Mo 13 16 [1; 3; 3]; Mo 7 4 [1; 2; 4]; Mo 17 16 [1; 1; 5]; Mo 1325 2 [4; 5]; Mo 1475 2 [3; 6]; Mo 931 1 [2; 7]; Mo 1365 1 [1; 8]; Mo (-756756) 1 [11]]; [Mo (-15) 16 [2; 3; 3]; Mo (-1) 1 [2; 2; 4]; Mo (-17) 8 [1; 3; 4]; Mo (-19) 8 [1; 2; 5]; Mo (-23) 16 [1; 1; 6]; Mo (-595) 1 [5; 5]; Mo (-2485) 2 [4; 6]; Mo (-2847) 2 [3; 7]; Mo (-1821) 1 [2; 8]; Mo (-2640) 1 [1; 9]; Mo 1837836 1 [12]]; [Mo 3 8 [3; 3; 3]; Mo 19 8 [2; 3; 4]; Mo 21 16 [1; 4; 4]; Mo 21 16 [2; 2; 5]; Mo 11 4 [1; 3; 5]; Mo 25 8 [1; 2; 6]; Mo 15 8 [1; 1; 7]; Mo 2065 1 [5; 6]; Mo 4445 2 [4; 7]; Mo 5195 2 [3; 8]; Mo 3345 1 [2; 9]; Mo 4785 1 [1; 10]; Mo (-4135131) 1 [13]]; [Mo (-11) 8 [3; 3; 4]; Mo (-23) 16 [2; 4; 4]; Mo (-3) 1 [2; 3; 5]; Mo (-13) 4 [1; 4; 5]; Mo (-27) 16 [2; 2; 6]; Mo (-7) 2 [1; 3; 6]; Mo (-4) 1 [1; 2; 7]; Mo (-19) 8 [1; 1; 8]; Mo (-1680) 1 [6; 6]; Mo (-3465) 1 [5; 7]; Mo (-7625) 2 [4; 8]; Mo (-9035) 2 [3; 9]; Mo (-5830) 1 [2; 10]; Mo (-16445) 2 [1; 11]]]];
 [[[Mo (-19) 10 [2; 2]; Mo (-9) 2 [1; 3]; Mo 462 1 [6]]; [Mo (-1) 16 [1; 1; 1]; Mo 65 2 [2; 3]; Mo 161 4 [1; 4]; Mo (-6006) 1 [7]]; [Mo 9 16 [1; 1; 2]; Mo (-149) 2 [3; 3]; Mo (-641) 4 [2; 4]; Mo (-819) 4 [1; 5]; Mo 42042 1 [8]]; [Mo (-19) 16 [1; 2; 2]; Mo (-23) 16 [1; 1; 3]; Mo 2111 4 [3; 4]; Mo 2359 4 [2; 5]; Mo 3087 4 [1; 6]; Mo (-210210) 1 [9]]; [Mo 11 16 [2; 2; 2]; Mo 39 8 [1; 2; 3]; Mo 51 16 [1; 1; 4]; Mo (-3005) 4 [4; 4]; Mo (-6269) 4 [3; 5]; Mo (-7175) 4 [2; 6]; Mo (-9555) 4 [1; 7]; Mo 840840 1 [10]]; [Mo (-59) 16 [2; 2; 3]; Mo (-17) 4 [1; 3; 3]; Mo (-75) 8 [1; 2; 4]; Mo (-101) 16 [1; 1; 5]; Mo 3815 1 [4; 5]; Mo 16345 4 [3; 6]; Mo 95151 20 [2; 7]; Mo 25641 4 [1; 8]; Mo (-2858856) 1 [11]]; [Mo 47 8 [2; 3; 3]; Mo 103 16 [2; 2; 4]; Mo 29 2 [1; 3; 4]; Mo 135 8 [1; 2; 5]; Mo 183 16 [1; 1; 6]; Mo (-17185) 4 [5; 5]; Mo (-8834) 1 [4; 6]; Mo (-38535) 4 [3; 7]; Mo (-45465) 4 [2; 8]; Mo (-61677) 4 [1; 9]; Mo 8576568 1 [12]]; [Mo (-23) 8 [3; 3; 3]; Mo (-75) 4 [2; 3; 4]; Mo (-45) 4 [1; 4; 4]; Mo (-173) 16 [2; 2; 5]; Mo (-191) 8 [1; 3; 5]; Mo (-229) 8 [1; 2; 6]; Mo (-309) 16 [1; 1; 7]; Mo 36197 2 [5; 6]; Mo 37933 2 [4; 7]; Mo 83829 4 [3; 8]; Mo 99957 4 [2; 9]; Mo 135993 4 [1; 10]; Mo (-23279256) 1 [13]]; [Mo 103 8 [3; 3; 4]; Mo 111 8 [2; 4; 4]; Mo 235 8 [2; 3; 5]; Mo 275 8 [1; 4; 5]; Mo 279 16 [2; 2; 6]; Mo 303 8 [1; 3; 6]; Mo 369 8 [1; 2; 7]; Mo 493 16 [1; 1; 8]; Mo (-70567) 4 [6; 6]; Mo (-71967) 2 [5; 7]; Mo (-38234) 1 [4; 8]; Mo (-170727) 4 [3; 9]; Mo (-205293) 4 [2; 10]; Mo (-279279) 4 [1; 11]]];
  [[Mo 1 2 [1; 2]; Mo (-42) 1 [5]]; [Mo (-3) 2 [2; 2]; Mo (-15) 4 [1; 3]; Mo 462 1 [6]]; [Mo 47 4 [2; 3]; Mo 65 4 [1; 4]; Mo (-2772) 1 [7]]; [Mo (-65) 4 [3; 3]; Mo (-145) 4 [2; 4]; Mo (-105) 2 [1; 5]; Mo 12012 1 [8]]; [Mo 80 1 [3; 4]; Mo 95 1 [2; 5]; Mo 140 1 [1; 6]; Mo (-42042) 1 [9]]; [Mo (-335) 4 [4; 4]; Mo (-715) 4 [3; 5]; Mo (-441) 2 [2; 6]; Mo (-651) 2 [1; 7]; Mo 126126 1 [10]]; [Mo 1325 4 [4; 5]; Mo 1475 4 [3; 6]; Mo 931 2 [2; 7]; Mo 1365 2 [1; 8]; Mo (-336336) 1 [11]]; [Mo (-595) 2 [5; 5]; Mo (-2485) 4 [4; 6]; Mo (-2847) 4 [3; 7]; Mo (-1821) 2 [2; 8]; Mo (-1320) 1 [1; 9]; Mo 816816 1 [12]]; [Mo 2065 2 [5; 6]; Mo 4445 4 [4; 7]; Mo 5195 4 [3; 8]; Mo 3345 2 [2; 9]; Mo 4785 2 [1; 10]; Mo (-1837836) 1 [13]]];
  [[Mo (-30) 1 [2; 3]; Mo (-112) 3 [1; 4]; Mo 6006 1 [7]]; [Mo (-1) 4 [1; 1; 2]; Mo 150 1 [3; 3]; Mo 322 1 [2; 4]; Mo 1659 4 [1; 5]; Mo (-90090) 1 [8]]; [Mo 1 1 [1; 2; 2]; Mo 15 8 [1; 1; 3]; Mo (-1724) 1 [3; 4]; Mo (-7707) 4 [2; 5]; Mo (-10185) 4 [1; 6]; Mo 720720 1 [9]]; [Mo (-1) 96 [1; 1; 1; 1]; Mo (-3) 4 [2; 2; 2]; Mo (-8) 1 [1; 2; 3]; Mo (-65) 8 [1; 1; 4]; Mo 10570 3 [4; 4]; Mo 29379 4 [3; 5]; Mo 33705 4 [2; 6]; Mo 22715 2 [1; 7]; Mo (-4084080) 1 [10]]; [Mo 1 16 [1; 1; 1; 2]; Mo 53 8 [2; 2; 3]; Mo 10 1 [1; 3; 3]; Mo 53 2 [1; 2; 4]; Mo 105 4 [1; 1; 5]; Mo (-95795) 4 [4; 5]; Mo (-102585) 4 [3; 6]; Mo (-59955) 2 [2; 7]; Mo (-82005) 2 [1; 8]; Mo 18378360 1 [11]]; [Mo (-1) 8 [1; 1; 2; 2]; Mo (-3) 32 [1; 1; 1; 3]; Mo (-14) 1 [2; 3; 3]; Mo (-151) 8 [2; 2; 4]; Mo (-50) 1 [1; 3; 4]; Mo (-74) 1 [1; 2; 5]; Mo (-70) 1 [1; 1; 6]; Mo 138075 4 [5; 5]; Mo 283801 4 [4; 6]; Mo 154875 2 [3; 7]; Mo 183645 2 [2; 8]; Mo 507507 4 [1; 9]; Mo (-69837768) 1 [12]]; [Mo 5 48 [1; 2; 2; 2]; Mo 11 32 [1; 1; 2; 3]; Mo 13 96 [1; 1; 1; 4]; Mo 65 8 [3; 3; 3]; Mo 64 1 [2; 3; 4]; Mo 50 1 [1; 4; 4]; Mo 193 4 [2; 2; 5]; Mo 235 2 [1; 3; 5]; Mo 361 2 [1; 2; 6]; Mo 651 4 [1; 1; 7]; Mo (-180201) 1 [5; 6]; Mo (-1132817) 6 [4; 7]; Mo (-418005) 2 [3; 8]; Mo (-1002771) 4 [2; 9]; Mo (-1394393) 4 [1; 10]; Mo 232792560 1 [13]]; [Mo (-1) 32 [2; 2; 2; 2]; Mo (-13) 32 [1; 2; 2; 3]; Mo (-7) 32 [1; 1; 3; 3]; Mo (-15) 32 [1; 1; 2; 4]; Mo (-3) 16 [1; 1; 1; 5]; Mo (-385) 8 [3; 3; 4]; Mo (-60) 1 [2; 4; 4]; Mo (-571) 4 [2; 3; 5]; Mo (-200) 1 [1; 4; 5]; Mo (-111) 1 [2; 2; 6]; Mo (-1025) 4 [1; 3; 6]; Mo (-1583) 4 [1; 2; 7]; Mo (-1365) 4 [1; 1; 8]; Mo 850185 4 [6; 6]; Mo 1733697 4 [5; 7]; Mo 921333 2 [4; 8]; Mo 2062467 4 [3; 9]; Mo 2497209 4 [2; 10]; Mo 870870 1 [1; 11]]; [Mo 5 32 [2; 2; 2; 3]; Mo 1 2 [1; 2; 3; 3]; Mo 17 32 [1; 2; 2; 4]; Mo 9 16 [1; 1; 3; 4]; Mo 5 8 [1; 1; 2; 5]; Mo 1 4 [1; 1; 1; 6]; Mo 655 8 [3; 4; 4]; Mo 195 2 [3; 3; 5]; Mo 925 4 [2; 4; 5]; Mo 175 1 [1; 5; 5]; Mo 601 2 [2; 3; 6]; Mo 1555 4 [1; 4; 6]; Mo 467 2 [2; 2; 7]; Mo 1041 2 [1; 3; 7]; Mo 3187 4 [1; 2; 8]; Mo 660 1 [1; 1; 9]; Mo (-3763935) 4 [6; 7]; Mo (-3893589) 4 [5; 8]; Mo (-4184355) 4 [4; 9]; Mo (-4725633) 4 [3; 10]; Mo (-1441440) 1 [2; 11]; Mo (-2012010) 1 [1; 12]]];
  [[Mo 11 10 [2; 2]; Mo 3 1 [1; 3]; Mo (-462) 1 [6]]; [Mo (-1) 16 [1; 1; 1]; Mo (-20) 1 [2; 3]; Mo (-119) 4 [1; 4]; Mo 6006 1 [7]]; [Mo 9 16 [1; 1; 2]; Mo 91 2 [3; 3]; Mo 419 4 [2; 4]; Mo 651 4 [1; 5]; Mo (-42042) 1 [8]]; [Mo (-19) 16 [1; 2; 2]; Mo (-23) 16 [1; 1; 3]; Mo (-1319) 4 [3; 4]; Mo (-1631) 4 [2; 5]; Mo (-2583) 4 [1; 6]; Mo 210210 1 [9]]; [Mo 11 16 [2; 2; 2]; Mo 39 8 [1; 2; 3]; Mo 51 16 [1; 1; 4]; Mo 1865 4 [4; 4]; Mo 4051 4 [3; 5]; Mo 5215 4 [2; 6]; Mo 8295 4 [1; 7]; Mo (-840840) 1 [10]]; [Mo (-59) 16 [2; 2; 3]; Mo (-17) 4 [1; 3; 3]; Mo (-75) 8 [1; 2; 4]; Mo (-101) 16 [1; 1; 5]; Mo (-4795) 2 [4; 5]; Mo (-10955) 4 [3; 6]; Mo (-72219) 20 [2; 7]; Mo (-22869) 4 [1; 8]; Mo 2858856 1 [11]]; [Mo 47 8 [2; 3; 3]; Mo 103 16 [2; 2; 4]; Mo 29 2 [1; 3; 4]; Mo 135 8 [1; 2; 5]; Mo 183 16 [1; 1; 6]; Mo 10745 4 [5; 5]; Mo 11347 2 [4; 6]; Mo 26775 4 [3; 7]; Mo 35805 4 [2; 8]; Mo 56133 4 [1; 9]; Mo (-8576568) 1 [12]]; [Mo (-23) 8 [3; 3; 3]; Mo (-75) 4 [2; 3; 4]; Mo (-45) 4 [1; 4; 4]; Mo (-173) 16 [2; 2; 5]; Mo (-191) 8 [1; 3; 5]; Mo (-229) 8 [1; 2; 6]; Mo (-309) 16 [1; 1; 7]; Mo (-22813) 2 [5; 6]; Mo (-24997) 2 [4; 7]; Mo (-60261) 4 [3; 8]; Mo (-81213) 4 [2; 9]; Mo (-125697) 4 [1; 10]; Mo 23279256 1 [13]]; [Mo 103 8 [3; 3; 4]; Mo 111 8 [2; 4; 4]; Mo 235 8 [2; 3; 5]; Mo 275 8 [1; 4; 5]; Mo 279 16 [2; 2; 6]; Mo 303 8 [1; 3; 6]; Mo 369 8 [1; 2; 7]; Mo 493 16 [1; 1; 8]; Mo 44303 4 [6; 6]; Mo 46053 2 [5; 7]; Mo 25886 1 [4; 8]; Mo 126633 4 [3; 9]; Mo 171237 4 [2; 10]; Mo 261261 4 [1; 11]]]];
 [[[Mo 1 48 [1; 1; 1]; Mo (-45) 4 [2; 3]; Mo (-175) 12 [1; 4]; Mo 2145 1 [7]]; [Mo (-7) 16 [1; 1; 2]; Mo 225 4 [3; 3]; Mo 245 2 [2; 4]; Mo 651 4 [1; 5]; Mo (-32175) 1 [8]]; [Mo 25 16 [1; 2; 2]; Mo 31 16 [1; 1; 3]; Mo (-650) 1 [3; 4]; Mo (-2961) 4 [2; 5]; Mo (-4011) 4 [1; 6]; Mo 257400 1 [9]]; [Mo (-21) 16 [2; 2; 2]; Mo (-77) 8 [1; 2; 3]; Mo (-105) 16 [1; 1; 4]; Mo 15925 12 [4; 4]; Mo 11151 4 [3; 5]; Mo 13041 4 [2; 6]; Mo 17941 4 [1; 7]; Mo (-1458600) 1 [10]]; [Mo 155 16 [2; 2; 3]; Mo 93 8 [1; 3; 3]; Mo 207 8 [1; 2; 4]; Mo 295 16 [1; 1; 5]; Mo (-9044) 1 [4; 5]; Mo (-19593) 2 [3; 6]; Mo (-46641) 4 [2; 7]; Mo (-64911) 4 [1; 8]; Mo 6563700 1 [11]]; [Mo (-161) 8 [2; 3; 3]; Mo (-357) 16 [2; 2; 4]; Mo (-105) 2 [1; 3; 4]; Mo (-497) 8 [1; 2; 5]; Mo (-721) 16 [1; 1; 6]; Mo 52101 4 [5; 5]; Mo 107611 4 [4; 6]; Mo 59493 2 [3; 7]; Mo 143451 4 [2; 8]; Mo 201201 4 [1; 9]; Mo (-24942060) 1 [12]]; [Mo 197 16 [3; 3; 3]; Mo 163 2 [2; 3; 4]; Mo 415 8 [1; 4; 4]; Mo 767 16 [2; 2; 5]; Mo 885 8 [1; 3; 5]; Mo 1087 8 [1; 2; 6]; Mo 791 8 [1; 1; 7]; Mo (-68103) 1 [5; 6]; Mo (-431459) 6 [4; 7]; Mo (-161343) 2 [3; 8]; Mo (-392931) 4 [2; 9]; Mo (-553553) 4 [1; 10]; Mo 83140200 1 [13]]; [Mo (-1085) 16 [3; 3; 4]; Mo (-595) 8 [2; 4; 4]; Mo (-1267) 8 [2; 3; 5]; Mo (-1575) 8 [1; 4; 5]; Mo (-1545) 16 [2; 2; 6]; Mo (-1751) 8 [1; 3; 6]; Mo (-275) 1 [1; 2; 7]; Mo (-1593) 8 [1; 1; 8]; Mo 321111 4 [6; 6]; Mo 657027 4 [5; 7]; Mo 352443 2 [4; 8]; Mo 399663 2 [3; 9]; Mo 981123 4 [2; 10]; Mo 1384383 4 [1; 11]]];
  [[Mo 1 2 [2; 2]; Mo 5 4 [1; 3]; Mo (-165) 1 [6]]; [Mo (-35) 4 [2; 3]; Mo (-49) 4 [1; 4]; Mo 2145 1 [7]]; [Mo 20 1 [3; 3]; Mo 179 4 [2; 4]; Mo 133 2 [1; 5]; Mo (-15015) 1 [8]]; [Mo (-287) 2 [3; 4]; Mo (-343) 2 [2; 5]; Mo (-525) 2 [1; 6]; Mo 75075 1 [9]]; [Mo 407 2 [4; 4]; Mo 1741 4 [3; 5]; Mo 1085 2 [2; 6]; Mo 840 1 [1; 7]; Mo (-300300) 1 [10]]; [Mo (-4165) 4 [4; 5]; Mo (-4655) 4 [3; 6]; Mo (-1491) 1 [2; 7]; Mo (-2310) 1 [1; 8]; Mo 1021020 1 [11]]; [Mo 1169 1 [5; 5]; Mo 9779 4 [4; 6]; Mo 5635 2 [3; 7]; Mo 3675 1 [2; 8]; Mo 11319 2 [1; 9]; Mo (-3063060) 1 [12]]; [Mo (-4949) 1 [5; 6]; Mo (-5341) 1 [4; 7]; Mo (-12585) 2 [3; 8]; Mo (-16599) 2 [2; 9]; Mo (-25311) 2 [1; 10]; Mo 8314020 1 [13]]];
  [[Mo 1 48 [1; 1; 2]; Mo (-1425) 28 [3; 3]; Mo (-445) 4 [2; 4]; Mo (-597) 4 [1; 5]; Mo 32175 1 [8]]; [Mo (-17) 40 [1; 2; 2]; Mo (-47) 48 [1; 1; 3]; Mo 5075 4 [3; 4]; Mo 1449 1 [2; 5]; Mo 7953 4 [1; 6]; Mo (-546975) 1 [9]]; [Mo 1 64 [1; 1; 1; 1]; Mo 39 80 [2; 2; 2]; Mo 59 8 [1; 2; 3]; Mo 69 8 [1; 1; 4]; Mo (-8325) 2 [4; 4]; Mo (-35007) 4 [3; 5]; Mo (-10278) 1 [2; 6]; Mo (-14355) 1 [1; 7]; Mo 4922775 1 [10]]; [Mo (-7) 48 [1; 1; 1; 2]; Mo (-609) 80 [2; 2; 3]; Mo (-119) 8 [1; 3; 3]; Mo (-241) 6 [1; 2; 4]; Mo (-539) 12 [1; 1; 5]; Mo 40355 1 [4; 5]; Mo 175113 4 [3; 6]; Mo 209649 4 [2; 7]; Mo 74217 1 [1; 8]; Mo (-31177575) 1 [11]]; [Mo 13 32 [1; 1; 2; 2]; Mo 31 96 [1; 1; 1; 3]; Mo 183 8 [2; 3; 3]; Mo 1357 40 [2; 2; 4]; Mo 2585 24 [1; 3; 4]; Mo 1307 8 [1; 2; 5]; Mo 8323 48 [1; 1; 6]; Mo (-154365) 2 [5; 5]; Mo (-637981) 4 [4; 6]; Mo (-707055) 4 [3; 7]; Mo (-858627) 4 [2; 8]; Mo (-1228227) 4 [1; 9]; Mo 155887875 1 [12]]; [Mo (-7) 16 [1; 2; 2; 2]; Mo (-49) 32 [1; 1; 2; 3]; Mo (-21) 32 [1; 1; 1; 4]; Mo (-33) 2 [3; 3; 3]; Mo (-1183) 8 [2; 3; 4]; Mo (-291) 2 [1; 4; 4]; Mo (-4917) 40 [2; 2; 5]; Mo (-1367) 4 [1; 3; 5]; Mo (-1085) 2 [1; 2; 6]; Mo (-8757) 16 [1; 1; 7]; Mo 2051253 4 [5; 6]; Mo 2167983 4 [4; 7]; Mo 2440053 4 [3; 8]; Mo 749034 1 [2; 9]; Mo 4315311 4 [1; 10]; Mo (-654729075) 1 [13]]; [Mo 31 192 [2; 2; 2; 2]; Mo 71 32 [1; 2; 2; 3]; Mo 81 64 [1; 1; 3; 3]; Mo 89 32 [1; 1; 2; 4]; Mo 59 48 [1; 1; 1; 5]; Mo 2067 16 [3; 3; 4]; Mo 544 3 [2; 4; 4]; Mo 444 1 [2; 3; 5]; Mo 18005 24 [1; 4; 5]; Mo 30159 80 [2; 2; 6]; Mo 1925 2 [1; 3; 6]; Mo 185927 120 [1; 2; 7]; Mo 23863 16 [1; 1; 8]; Mo (-2977443) 4 [6; 6]; Mo (-6094269) 4 [5; 7]; Mo (-6547821) 4 [4; 8]; Mo (-7455987) 4 [3; 9]; Mo (-2309307) 1 [2; 10]; Mo (-3339336) 1 [1; 11]]; [Mo (-97) 96 [2; 2; 2; 3]; Mo (-109) 32 [1; 2; 3; 3]; Mo (-119) 32 [1; 2; 2; 4]; Mo (-133) 32 [1; 1; 3; 4]; Mo (-77) 16 [1; 1; 2; 5]; Mo (-103) 48 [1; 1; 1; 6]; Mo (-6517) 24 [3; 4; 4]; Mo (-5481) 16 [3; 3; 5]; Mo (-7165) 8 [2; 4; 5]; Mo (-3283) 4 [1; 5; 5]; Mo (-4821) 4 [2; 3; 6]; Mo (-43603) 24 [1; 4; 6]; Mo (-81217) 80 [2; 2; 7]; Mo (-14693) 6 [1; 3; 7]; Mo (-31491) 8 [1; 2; 8]; Mo (-58091) 16 [1; 1; 9]; Mo 7937811 2 [6; 7]; Mo 16526223 4 [5; 8]; Mo 17977575 4 [4; 9]; Mo 144617187 28 [3; 10]; Mo 25782471 4 [2; 11]; Mo 9335040 1 [1; 12]]];
  [[Mo 1 48 [1; 1; 1]; Mo 25 4 [2; 3]; Mo 119 12 [1; 4]; Mo (-2145) 1 [7]]; [Mo (-7) 16 [1; 1; 2]; Mo (-125) 4 [3; 3]; Mo (-147) 2 [2; 4]; Mo (-483) 4 [1; 5]; Mo 32175 1 [8]]; [Mo 25 16 [1; 2; 2]; Mo 31 16 [1; 1; 3]; Mo 372 1 [3; 4]; Mo 1897 4 [2; 5]; Mo 3171 4 [1; 6]; Mo (-257400) 1 [9]]; [Mo (-21) 16 [2; 2; 2]; Mo (-77) 8 [1; 2; 3]; Mo (-105) 16 [1; 1; 4]; Mo (-9065) 12 [4; 4]; Mo (-6643) 4 [3; 5]; Mo (-8841) 4 [2; 6]; Mo (-14861) 4 [1; 7]; Mo 1458600 1 [10]]; [Mo 155 16 [2; 2; 3]; Mo 93 8 [1; 3; 3]; Mo 207 8 [1; 2; 4]; Mo 295 16 [1; 1; 5]; Mo 5229 1 [4; 5]; Mo 12173 2 [3; 6]; Mo 33201 4 [2; 7]; Mo 55671 4 [1; 8]; Mo (-6563700) 1 [11]]; [Mo (-161) 8 [2; 3; 3]; Mo (-357) 16 [2; 2; 4]; Mo (-105) 2 [1; 3; 4]; Mo (-497) 8 [1; 2; 5]; Mo (-721) 16 [1; 1; 6]; Mo (-29981) 4 [5; 5]; Mo (-63819) 4 [4; 6]; Mo (-38493) 2 [3; 7]; Mo (-106491) 4 [2; 8]; Mo (-177177) 4 [1; 9]; Mo 24942060 1 [12]]; [Mo 197 16 [3; 3; 3]; Mo 163 2 [2; 3; 4]; Mo 415 8 [1; 4; 4]; Mo 767 16 [2; 2; 5]; Mo 885 8 [1; 3; 5]; Mo 1087 8 [1; 2; 6]; Mo 791 8 [1; 1; 7]; Mo 39571 1 [5; 6]; Mo 263515 6 [4; 7]; Mo 108423 2 [3; 8]; Mo 302379 4 [2; 9]; Mo 497497 4 [1; 10]; Mo (-83140200) 1 [13]]; [Mo (-1085) 16 [3; 3; 4]; Mo (-595) 8 [2; 4; 4]; Mo (-1267) 8 [2; 3; 5]; Mo (-1575) 8 [1; 4; 5]; Mo (-1545) 16 [2; 2; 6]; Mo (-1751) 8 [1; 3; 6]; Mo (-275) 1 [1; 2; 7]; Mo (-1593) 8 [1; 1; 8]; Mo (-185871) 4 [6; 6]; Mo (-388563) 4 [5; 7]; Mo (-221907) 2 [4; 8]; Mo (-278091) 2 [3; 9]; Mo (-778635) 4 [2; 10]; Mo (-1264263) 4 [1; 11]]]];
 [[[Mo 1 8 [1; 1; 2]; Mo (-925) 56 [3; 3]; Mo (-36) 1 [2; 4]; Mo (-99) 2 [1; 5]; Mo 19305 2 [8]]; [Mo (-1) 1 [1; 2; 2]; Mo (-5) 4 [1; 1; 3]; Mo 1645 4 [3; 4]; Mo 945 2 [2; 5]; Mo 660 1 [1; 6]; Mo (-328185) 2 [9]]; [Mo 11 8 [2; 2; 2]; Mo 41 4 [1; 2; 3]; Mo 57 8 [1; 1; 4]; Mo (-10795) 8 [4; 4]; Mo (-2842) 1 [3; 5]; Mo (-3369) 1 [2; 6]; Mo (-9537) 2 [1; 7]; Mo 2953665 2 [10]]; [Mo (-59) 4 [2; 2; 3]; Mo (-145) 8 [1; 3; 3]; Mo (-81) 2 [1; 2; 4]; Mo (-119) 4 [1; 1; 5]; Mo 13090 1 [4; 5]; Mo 28515 2 [3; 6]; Mo 34485 2 [2; 7]; Mo 49335 2 [1; 8]; Mo (-18706545) 2 [11]]; [Mo 331 8 [2; 3; 3]; Mo 369 8 [2; 2; 4]; Mo 447 4 [1; 3; 4]; Mo 533 4 [1; 2; 5]; Mo 805 8 [1; 1; 6]; Mo (-50065) 2 [5; 5]; Mo (-103611) 2 [4; 6]; Mo (-57741) 1 [3; 7]; Mo (-141603) 2 [2; 8]; Mo (-102102) 1 [1; 9]; Mo 93532725 2 [12]]; [Mo (-65) 2 [3; 3; 3]; Mo (-867) 4 [2; 3; 4]; Mo (-1149) 8 [1; 4; 4]; Mo (-515) 4 [2; 2; 5]; Mo (-307) 1 [1; 3; 5]; Mo (-763) 2 [1; 2; 6]; Mo (-2331) 8 [1; 1; 7]; Mo 332805 2 [5; 6]; Mo 176370 1 [4; 7]; Mo 199815 1 [3; 8]; Mo 247533 1 [2; 9]; Mo 717717 2 [1; 10]; Mo (-392837445) 2 [13]]; [Mo 1787 8 [3; 3; 4]; Mo 1979 8 [2; 4; 4]; Mo 2113 4 [2; 3; 5]; Mo 2745 4 [1; 4; 5]; Mo 2613 8 [2; 2; 6]; Mo 3065 4 [1; 3; 6]; Mo 3913 4 [1; 2; 7]; Mo 5985 8 [1; 1; 8]; Mo (-241500) 1 [6; 6]; Mo (-989733) 2 [5; 7]; Mo (-533778) 1 [4; 8]; Mo (-1224069) 2 [3; 9]; Mo (-1528527) 2 [2; 10]; Mo (-1111110) 1 [1; 11]]];
  [[Mo 5 2 [2; 3]; Mo 7 2 [1; 4]; Mo (-1287) 2 [7]]; [Mo (-25) 2 [3; 3]; Mo (-28) 1 [2; 4]; Mo (-42) 1 [1; 5]; Mo 19305 2 [8]]; [Mo 146 1 [3; 4]; Mo 175 1 [2; 5]; Mo 273 1 [1; 6]; Mo (-77220) 1 [9]]; [Mo (-595) 2 [4; 4]; Mo (-637) 1 [3; 5]; Mo (-798) 1 [2; 6]; Mo (-2541) 2 [1; 7]; Mo 437580 1 [10]]; [Mo 4081 2 [4; 5]; Mo 4571 2 [3; 6]; Mo 5901 2 [2; 7]; Mo 9471 2 [1; 8]; Mo (-1969110) 1 [11]]; [Mo (-2933) 1 [5; 5]; Mo (-6139) 1 [4; 6]; Mo (-7098) 1 [3; 7]; Mo (-18711) 2 [2; 8]; Mo (-15015) 1 [1; 9]; Mo 7482618 1 [12]]; [Mo 15400 1 [5; 6]; Mo 16646 1 [4; 7]; Mo 19698 1 [3; 8]; Mo 26334 1 [2; 9]; Mo 42042 1 [1; 10]; Mo (-24942060) 1 [13]]];
  [[Mo 1 20 [1; 2; 2]; Mo 7 48 [1; 1; 3]; Mo (-735) 2 [3; 4]; Mo (-1701) 4 [2; 5]; Mo (-2409) 4 [1; 6]; Mo 328185 2 [9]]; [Mo (-1) 96 [1; 1; 1; 1]; Mo (-3) 20 [2; 2; 2]; Mo (-13) 4 [1; 2; 3]; Mo (-203) 48 [1; 1; 4]; Mo 5145 2 [4; 4]; Mo 21735 4 [3; 5]; Mo 12969 2 [2; 6]; Mo 37323 4 [1; 7]; Mo (-6235515) 2 [10]]; [Mo 1 6 [1; 1; 1; 2]; Mo 399 80 [2; 2; 3]; Mo 99 8 [1; 3; 3]; Mo 403 12 [1; 2; 4]; Mo 245 6 [1; 1; 5]; Mo (-159285) 4 [4; 5]; Mo (-174159) 4 [3; 6]; Mo (-212223) 4 [2; 7]; Mo (-309309) 4 [1; 8]; Mo 31177575 1 [11]]; [Mo (-11) 16 [1; 1; 2; 2]; Mo (-9) 16 [1; 1; 1; 3]; Mo (-93) 4 [2; 3; 3]; Mo (-591) 16 [2; 2; 4]; Mo (-1111) 8 [1; 3; 4]; Mo (-847) 4 [1; 2; 5]; Mo (-973) 4 [1; 1; 6]; Mo 429975 4 [5; 5]; Mo 891285 4 [4; 6]; Mo 249447 1 [3; 7]; Mo 1234233 4 [2; 8]; Mo 1816815 4 [1; 9]; Mo (-218243025) 1 [12]]; [Mo 1 1 [1; 2; 2; 2]; Mo 29 8 [1; 1; 2; 3]; Mo 13 8 [1; 1; 1; 4]; Mo 177 8 [3; 3; 3]; Mo 1757 8 [2; 3; 4]; Mo 1583 6 [1; 4; 4]; Mo 195 1 [2; 2; 5]; Mo 4935 8 [1; 3; 5]; Mo 3955 4 [1; 2; 6]; Mo 4319 4 [1; 1; 7]; Mo (-1886805) 2 [5; 6]; Mo (-1002429) 1 [4; 7]; Mo (-1141371) 1 [3; 8]; Mo (-2855853) 2 [2; 9]; Mo (-2117115) 1 [1; 10]; Mo 2400673275 2 [13]]; [Mo (-15) 32 [2; 2; 2; 2]; Mo (-107) 16 [1; 2; 2; 3]; Mo (-127) 32 [1; 1; 3; 3]; Mo (-141) 16 [1; 1; 2; 4]; Mo (-33) 8 [1; 1; 1; 5]; Mo (-1873) 8 [3; 3; 4]; Mo (-8681) 24 [2; 4; 4]; Mo (-3597) 4 [2; 3; 5]; Mo (-14371) 8 [1; 4; 5]; Mo (-16191) 20 [2; 2; 6]; Mo (-9163) 4 [1; 3; 6]; Mo (-37471) 10 [1; 2; 7]; Mo (-15631) 4 [1; 1; 8]; Mo 6916959 4 [6; 6]; Mo 14189097 4 [5; 7]; Mo 3838065 1 [4; 8]; Mo 17702685 4 [3; 9]; Mo 22345323 4 [2; 10]; Mo 8321313 1 [1; 11]]; [Mo 89 24 [2; 2; 2; 3]; Mo 13 1 [1; 2; 3; 3]; Mo 115 8 [1; 2; 2; 4]; Mo 67 4 [1; 1; 3; 4]; Mo 79 4 [1; 1; 2; 5]; Mo 113 12 [1; 1; 1; 6]; Mo 14917 24 [3; 4; 4]; Mo 6525 8 [3; 3; 5]; Mo 9253 4 [2; 4; 5]; Mo 2499 1 [1; 5; 5]; Mo 25341 8 [2; 3; 6]; Mo 66073 12 [1; 4; 6]; Mo 56329 20 [2; 2; 7]; Mo 177331 24 [1; 3; 7]; Mo 24297 2 [1; 2; 8]; Mo 48587 4 [1; 1; 9]; Mo (-45213021) 4 [6; 7]; Mo (-47249055) 4 [5; 8]; Mo (-51823695) 4 [4; 9]; Mo (-60345285) 4 [3; 10]; Mo (-19180161) 1 [2; 11]; Mo (-28639611) 1 [1; 12]]];
  [[Mo 1 8 [1; 1; 2]; Mo 475 56 [3; 3]; Mo 20 1 [2; 4]; Mo 69 2 [1; 5]; Mo (-19305) 2 [8]]; [Mo (-1) 1 [1; 2; 2]; Mo (-5) 4 [1; 1; 3]; Mo (-875) 4 [3; 4]; Mo (-567) 2 [2; 5]; Mo (-495) 1 [1; 6]; Mo 328185 2 [9]]; [Mo 11 8 [2; 2; 2]; Mo 41 4 [1; 2; 3]; Mo 57 8 [1; 1; 4]; Mo 5725 8 [4; 4]; Mo 1582 1 [3; 5]; Mo 2154 1 [2; 6]; Mo 7557 2 [1; 7]; Mo (-2953665) 2 [10]]; [Mo (-59) 4 [2; 2; 3]; Mo (-145) 8 [1; 3; 3]; Mo (-81) 2 [1; 2; 4]; Mo (-119) 4 [1; 1; 5]; Mo (-7070) 1 [4; 5]; Mo (-16635) 2 [3; 6]; Mo (-23265) 2 [2; 7]; Mo (-40755) 2 [1; 8]; Mo 18706545 2 [11]]; [Mo 331 8 [2; 3; 3]; Mo 369 8 [2; 2; 4]; Mo 447 4 [1; 3; 4]; Mo 533 4 [1; 2; 5]; Mo 805 8 [1; 1; 6]; Mo 26935 2 [5; 5]; Mo 57571 2 [4; 6]; Mo 35226 1 [3; 7]; Mo 100023 2 [2; 8]; Mo 87087 1 [1; 9]; Mo (-93532725) 2 [12]]; [Mo (-65) 2 [3; 3; 3]; Mo (-867) 4 [2; 3; 4]; Mo (-1149) 8 [1; 4; 4]; Mo (-515) 4 [2; 2; 5]; Mo (-307) 1 [1; 3; 5]; Mo (-763) 2 [1; 2; 6]; Mo (-2331) 8 [1; 1; 7]; Mo (-181065) 2 [5; 6]; Mo (-101229) 1 [4; 7]; Mo (-127050) 1 [3; 8]; Mo (-181896) 1 [2; 9]; Mo (-627627) 2 [1; 10]; Mo 392837445 2 [13]]; [Mo 1787 8 [3; 3; 4]; Mo 1979 8 [2; 4; 4]; Mo 2113 4 [2; 3; 5]; Mo 2745 4 [1; 4; 5]; Mo 2613 8 [2; 2; 6]; Mo 3065 4 [1; 3; 6]; Mo 3913 4 [1; 2; 7]; Mo 5985 8 [1; 1; 8]; Mo 130935 1 [6; 6]; Mo 549105 2 [5; 7]; Mo 316743 1 [4; 8]; Mo 808269 2 [3; 9]; Mo 1162161 2 [2; 10]; Mo 990990 1 [1; 11]]]];
 [[[Mo 1 4 [1; 2; 2]; Mo 5 16 [1; 1; 3]; Mo (-105) 1 [3; 4]; Mo (-483) 4 [2; 5]; Mo (-693) 4 [1; 6]; Mo 85085 2 [9]]; [Mo (-3) 4 [2; 2; 2]; Mo (-45) 8 [1; 2; 3]; Mo (-63) 16 [1; 1; 4]; Mo 735 1 [4; 4]; Mo 6195 4 [3; 5]; Mo 1848 1 [2; 6]; Mo 10725 4 [1; 7]; Mo (-1616615) 2 [10]]; [Mo 209 16 [2; 2; 3]; Mo 65 4 [1; 3; 3]; Mo 291 8 [1; 2; 4]; Mo 217 8 [1; 1; 5]; Mo (-45465) 4 [4; 5]; Mo (-49623) 4 [3; 6]; Mo (-60621) 4 [2; 7]; Mo (-88803) 4 [1; 8]; Mo 8083075 1 [11]]; [Mo (-105) 2 [2; 3; 3]; Mo (-939) 16 [2; 2; 4]; Mo (-579) 4 [1; 3; 4]; Mo (-693) 4 [1; 2; 5]; Mo (-1071) 8 [1; 1; 6]; Mo 122745 4 [5; 5]; Mo 254205 4 [4; 6]; Mo 71115 1 [3; 7]; Mo 353067 4 [2; 8]; Mo 521235 4 [1; 9]; Mo (-56581525) 1 [12]]; [Mo 55 1 [3; 3; 3]; Mo 1473 4 [2; 3; 4]; Mo 501 2 [1; 4; 4]; Mo 1759 8 [2; 2; 5]; Mo 4289 8 [1; 3; 5]; Mo 2681 4 [1; 2; 6]; Mo 4221 8 [1; 1; 7]; Mo (-269220) 1 [5; 6]; Mo (-285819) 1 [4; 7]; Mo (-325677) 1 [3; 8]; Mo (-408837) 1 [2; 9]; Mo (-607035) 1 [1; 10]; Mo 622396775 2 [13]]; [Mo (-483) 1 [3; 3; 4]; Mo (-2151) 4 [2; 4; 4]; Mo (-9201) 8 [2; 3; 5]; Mo (-12327) 8 [1; 4; 5]; Mo (-5733) 8 [2; 2; 6]; Mo (-13797) 8 [1; 3; 6]; Mo (-8883) 4 [1; 2; 7]; Mo (-14091) 8 [1; 1; 8]; Mo 1974063 4 [6; 6]; Mo 4047639 4 [5; 7]; Mo 1094445 1 [4; 8]; Mo 5055765 4 [3; 9]; Mo 6401109 4 [2; 10]; Mo 2384811 1 [1; 11]]];
  [[Mo 25 8 [3; 3]; Mo 7 1 [2; 4]; Mo 21 2 [1; 5]; Mo (-5005) 2 [8]]; [Mo (-315) 4 [3; 4]; Mo (-189) 2 [2; 5]; Mo (-297) 2 [1; 6]; Mo 85085 2 [9]]; [Mo 2065 8 [4; 4]; Mo 553 1 [3; 5]; Mo 1389 2 [2; 6]; Mo 1122 1 [1; 7]; Mo (-765765) 2 [10]]; [Mo (-2520) 1 [4; 5]; Mo (-2826) 1 [3; 6]; Mo (-3663) 1 [2; 7]; Mo (-6006) 1 [1; 8]; Mo 4849845 2 [11]]; [Mo 9625 2 [5; 5]; Mo 10078 1 [4; 6]; Mo 23349 2 [3; 7]; Mo 15477 1 [2; 8]; Mo 51051 2 [1; 9]; Mo (-24249225) 2 [12]]; [Mo (-32121) 1 [5; 6]; Mo (-69507) 2 [4; 7]; Mo (-82467) 2 [3; 8]; Mo (-111111) 2 [2; 9]; Mo (-183183) 2 [1; 10]; Mo 101846745 2 [13]]];
  [[Mo 1 384 [1; 1; 1; 1]; Mo 1 60 [2; 2; 2]; Mo 1 2 [1; 2; 3]; Mo 35 48 [1; 1; 4]; Mo (-46795) 72 [4; 4]; Mo (-5495) 4 [3; 5]; Mo (-3311) 2 [2; 6]; Mo (-29315) 12 [1; 7]; Mo 1616615 2 [10]]; [Mo (-3) 32 [1; 1; 1; 2]; Mo (-7) 4 [2; 2; 3]; Mo (-145) 28 [1; 3; 3]; Mo (-115) 8 [1; 2; 4]; Mo (-297) 16 [1; 1; 5]; Mo 21315 1 [4; 5]; Mo 93555 4 [3; 6]; Mo 115401 4 [2; 7]; Mo 172315 4 [1; 8]; Mo (-33948915) 2 [11]]; [Mo 41 64 [1; 1; 2; 2]; Mo 17 32 [1; 1; 1; 3]; Mo 101 7 [2; 3; 3]; Mo 389 16 [2; 2; 4]; Mo 415 4 [1; 3; 4]; Mo 1279 8 [1; 2; 5]; Mo 3099 16 [1; 1; 6]; Mo (-728875) 8 [5; 5]; Mo (-189105) 1 [4; 6]; Mo (-425865) 2 [3; 7]; Mo (-1068067) 4 [2; 8]; Mo (-402545) 1 [1; 9]; Mo 373438065 2 [12]]; [Mo (-43) 32 [1; 2; 2; 2]; Mo (-159) 32 [1; 1; 2; 3]; Mo (-73) 32 [1; 1; 1; 4]; Mo (-415) 21 [3; 3; 3]; Mo (-845) 4 [2; 3; 4]; Mo (-1775) 6 [1; 4; 4]; Mo (-3157) 16 [2; 2; 5]; Mo (-2771) 4 [1; 3; 5]; Mo (-8937) 8 [1; 2; 6]; Mo (-20603) 16 [1; 1; 7]; Mo 4491585 4 [5; 6]; Mo 4785605 4 [4; 7]; Mo 2744885 2 [3; 8]; Mo 3484195 2 [2; 9]; Mo 7937215 3 [1; 10]; Mo (-2863025165) 2 [13]]; [Mo 107 128 [2; 2; 2; 2]; Mo 391 32 [1; 2; 2; 3]; Mo 119 16 [1; 1; 3; 3]; Mo 531 32 [1; 1; 2; 4]; Mo 257 32 [1; 1; 1; 5]; Mo 8195 28 [3; 3; 4]; Mo 1931 4 [2; 4; 4]; Mo 4867 4 [2; 3; 5]; Mo 22181 8 [1; 4; 5]; Mo 18275 16 [2; 2; 6]; Mo 3533 1 [1; 3; 6]; Mo 46545 8 [1; 2; 7]; Mo 102729 16 [1; 1; 8]; Mo (-21610715) 8 [6; 6]; Mo (-11094735) 2 [5; 7]; Mo (-24105235) 4 [4; 8]; Mo (-28038725) 4 [3; 9]; Mo (-8981115) 1 [2; 10]; Mo (-13710840) 1 [1; 11]]; [Mo (-273) 32 [2; 2; 2; 3]; Mo (-123) 4 [1; 2; 3; 3]; Mo (-1095) 32 [1; 2; 2; 4]; Mo (-657) 16 [1; 1; 3; 4]; Mo (-1563) 32 [1; 1; 2; 5]; Mo (-777) 32 [1; 1; 1; 6]; Mo (-2015) 2 [3; 4; 4]; Mo (-38071) 28 [3; 3; 5]; Mo (-32623) 8 [2; 4; 5]; Mo (-40211) 8 [1; 5; 5]; Mo (-11329) 2 [2; 3; 6]; Mo (-88513) 8 [1; 4; 6]; Mo (-418239) 80 [2; 2; 7]; Mo (-14814) 1 [1; 3; 7]; Mo (-196779) 8 [1; 2; 8]; Mo (-417417) 16 [1; 1; 9]; Mo 44414601 2 [6; 7]; Mo 46510805 2 [5; 8]; Mo 25638470 1 [4; 9]; Mo 120568305 4 [3; 10]; Mo 38905724 1 [2; 11]; Mo 59583810 1 [1; 12]]];
  [[Mo 1 4 [1; 2; 2]; Mo 5 16 [1; 1; 3]; Mo 105 2 [3; 4]; Mo 273 4 [2; 5]; Mo 495 4 [1; 6]; Mo (-85085) 2 [9]]; [Mo (-3) 4 [2; 2; 2]; Mo (-45) 8 [1; 2; 3]; Mo (-63) 16 [1; 1; 4]; Mo (-735) 2 [4; 4]; Mo (-3255) 4 [3; 5]; Mo (-1122) 1 [2; 6]; Mo (-8151) 4 [1; 7]; Mo 1616615 2 [10]]; [Mo 209 16 [2; 2; 3]; Mo 65 4 [1; 3; 3]; Mo 291 8 [1; 2; 4]; Mo 217 8 [1; 1; 5]; Mo 23205 4 [4; 5]; Mo 27435 4 [3; 6]; Mo 39039 4 [2; 7]; Mo 70785 4 [1; 8]; Mo (-8083075) 1 [11]]; [Mo (-105) 2 [2; 3; 3]; Mo (-939) 16 [2; 2; 4]; Mo (-579) 4 [1; 3; 4]; Mo (-693) 4 [1; 2; 5]; Mo (-1071) 8 [1; 1; 6]; Mo (-62475) 4 [5; 5]; Mo (-133785) 4 [4; 6]; Mo (-82533) 2 [3; 7]; Mo (-238953) 4 [2; 8]; Mo (-431145) 4 [1; 9]; Mo 56581525 1 [12]]; [Mo 55 1 [3; 3; 3]; Mo 1473 4 [2; 3; 4]; Mo 501 2 [1; 4; 4]; Mo 1759 8 [2; 2; 5]; Mo 4289 8 [1; 3; 5]; Mo 2681 4 [1; 2; 6]; Mo 4221 8 [1; 1; 7]; Mo 138750 1 [5; 6]; Mo 311493 2 [4; 7]; Mo 395175 2 [3; 8]; Mo 288717 1 [2; 9]; Mo 516945 1 [1; 10]; Mo (-622396775) 2 [13]]; [Mo (-483) 1 [3; 3; 4]; Mo (-2151) 4 [2; 4; 4]; Mo (-9201) 8 [2; 3; 5]; Mo (-12327) 8 [1; 4; 5]; Mo (-5733) 8 [2; 2; 6]; Mo (-13797) 8 [1; 3; 6]; Mo (-8883) 4 [1; 2; 7]; Mo (-14091) 8 [1; 1; 8]; Mo (-1014405) 4 [6; 6]; Mo (-2130369) 4 [5; 7]; Mo (-1236015) 2 [4; 8]; Mo (-3193905) 4 [3; 9]; Mo (-4689399) 4 [2; 10]; Mo (-2078505) 1 [1; 11]]]];
 [[[Mo 1 6 [2; 2; 2]; Mo 5 4 [1; 2; 3]; Mo 7 8 [1; 1; 4]; Mo (-2989) 18 [4; 4]; Mo (-350) 1 [3; 5]; Mo (-418) 1 [2; 6]; Mo (-1859) 3 [1; 7]; Mo 184756 1 [10]]; [Mo (-25) 4 [2; 2; 3]; Mo (-125) 16 [1; 3; 3]; Mo (-35) 2 [1; 2; 4]; Mo (-105) 8 [1; 1; 5]; Mo 5439 1 [4; 5]; Mo 5940 1 [3; 6]; Mo 7293 1 [2; 7]; Mo 43615 4 [1; 8]; Mo (-3879876) 1 [11]]; [Mo 645 16 [2; 3; 3]; Mo 361 8 [2; 2; 4]; Mo 899 8 [1; 3; 4]; Mo 539 4 [1; 2; 5]; Mo 843 8 [1; 1; 6]; Mo (-46501) 2 [5; 5]; Mo (-48165) 1 [4; 6]; Mo (-53988) 1 [3; 7]; Mo (-270127) 4 [2; 8]; Mo (-406835) 4 [1; 9]; Mo 42678636 1 [12]]; [Mo (-2875) 48 [3; 3; 3]; Mo (-3215) 8 [2; 3; 4]; Mo (-4445) 16 [1; 4; 4]; Mo (-1925) 8 [2; 2; 5]; Mo (-595) 1 [1; 3; 5]; Mo (-2985) 4 [1; 2; 6]; Mo (-4785) 8 [1; 1; 7]; Mo 286335 1 [5; 6]; Mo 304205 1 [4; 7]; Mo 1390675 4 [3; 8]; Mo 1762475 4 [2; 9]; Mo 8010145 12 [1; 10]; Mo (-327202876) 1 [13]]; [Mo 11159 16 [3; 3; 4]; Mo 12461 16 [2; 4; 4]; Mo 6669 4 [2; 3; 5]; Mo 9121 4 [1; 4; 5]; Mo 8347 8 [2; 2; 6]; Mo 10223 4 [1; 3; 6]; Mo 13227 4 [1; 2; 7]; Mo 21483 8 [1; 1; 8]; Mo (-1377845) 2 [6; 6]; Mo (-1412970) 1 [5; 7]; Mo (-6120895) 4 [4; 8]; Mo (-7099235) 4 [3; 9]; Mo (-9084075) 4 [2; 10]; Mo (-13820235) 4 [1; 11]]];
  [[Mo 35 2 [3; 4]; Mo 21 1 [2; 5]; Mo 33 1 [1; 6]; Mo (-9724) 1 [9]]; [Mo (-245) 2 [4; 4]; Mo (-525) 2 [3; 5]; Mo (-330) 1 [2; 6]; Mo (-2145) 4 [1; 7]; Mo 184756 1 [10]]; [Mo 3815 2 [4; 5]; Mo 4281 2 [3; 6]; Mo 11121 4 [2; 7]; Mo 18447 4 [1; 8]; Mo (-1847560) 1 [11]]; [Mo (-5145) 1 [5; 5]; Mo (-21555) 2 [4; 6]; Mo (-49995) 4 [3; 7]; Mo (-66495) 4 [2; 8]; Mo (-27885) 1 [1; 9]; Mo 12932920 1 [12]]; [Mo 45330 1 [5; 6]; Mo 196299 4 [4; 7]; Mo 233277 4 [3; 8]; Mo 78936 1 [2; 9]; Mo 132990 1 [1; 10]; Mo (-71131060) 1 [13]]];
  [[Mo 1 48 [1; 1; 1; 2]; Mo 1 4 [2; 2; 3]; Mo 45 56 [1; 3; 3]; Mo 29 12 [1; 2; 4]; Mo 13 4 [1; 1; 5]; Mo (-9555) 2 [4; 5]; Mo (-5247) 1 [3; 6]; Mo (-32604) 5 [2; 7]; Mo (-19877) 2 [1; 8]; Mo 3879876 1 [11]]; [Mo (-5) 16 [1; 1; 2; 2]; Mo (-25) 96 [1; 1; 1; 3]; Mo (-275) 56 [2; 3; 3]; Mo (-9) 1 [2; 2; 4]; Mo (-245) 6 [1; 3; 4]; Mo (-519) 8 [1; 2; 5]; Mo (-649) 8 [1; 1; 6]; Mo 85995 2 [5; 5]; Mo 178563 2 [4; 6]; Mo 100815 1 [3; 7]; Mo 255255 2 [2; 8]; Mo 785213 4 [1; 9]; Mo (-89237148) 1 [12]]; [Mo 17 16 [1; 2; 2; 2]; Mo 127 32 [1; 1; 2; 3]; Mo 59 32 [1; 1; 1; 4]; Mo 155 14 [3; 3; 3]; Mo 127 1 [2; 3; 4]; Mo 1585 8 [1; 4; 4]; Mo 1001 8 [2; 2; 5]; Mo 3747 8 [1; 3; 5]; Mo 6117 8 [1; 2; 6]; Mo 7293 8 [1; 1; 7]; Mo (-834876) 1 [5; 6]; Mo (-890604) 1 [4; 7]; Mo (-1026168) 1 [3; 8]; Mo (-5266833) 4 [2; 9]; Mo (-8160867) 4 [1; 10]; Mo 1070845776 1 [13]]; [Mo (-15) 16 [2; 2; 2; 2]; Mo (-445) 32 [1; 2; 2; 3]; Mo (-275) 32 [1; 1; 3; 3]; Mo (-615) 32 [1; 1; 2; 4]; Mo (-455) 48 [1; 1; 1; 5]; Mo (-3455) 14 [3; 3; 4]; Mo (-10225) 24 [2; 4; 4]; Mo (-2191) 2 [2; 3; 5]; Mo (-65705) 24 [1; 4; 5]; Mo (-1065) 1 [2; 2; 6]; Mo (-14049) 4 [1; 3; 6]; Mo (-5819) 1 [1; 2; 7]; Mo (-53339) 8 [1; 1; 8]; Mo 5611221 2 [6; 6]; Mo 11528517 2 [5; 7]; Mo 6275269 1 [4; 8]; Mo 29363763 4 [3; 9]; Mo 38062167 4 [2; 10]; Mo 14826669 1 [1; 11]]; [Mo 409 32 [2; 2; 2; 3]; Mo 751 16 [1; 2; 3; 3]; Mo 1677 32 [1; 2; 2; 4]; Mo 513 8 [1; 1; 3; 4]; Mo 613 8 [1; 1; 2; 5]; Mo 469 12 [1; 1; 1; 6]; Mo 6875 6 [3; 4; 4]; Mo 44511 28 [3; 3; 5]; Mo 19717 4 [2; 4; 5]; Mo 53805 8 [1; 5; 5]; Mo 55807 8 [2; 3; 6]; Mo 89041 6 [1; 4; 6]; Mo 52923 8 [2; 2; 7]; Mo 159461 8 [1; 3; 7]; Mo 33264 1 [1; 2; 8]; Mo 294151 8 [1; 1; 9]; Mo (-60296775) 2 [6; 7]; Mo (-31604001) 1 [5; 8]; Mo (-139793225) 4 [4; 9]; Mo (-165453717) 4 [3; 10]; Mo (-54041130) 1 [2; 11]; Mo (-84525870) 1 [1; 12]]];
  [[Mo 1 6 [2; 2; 2]; Mo 5 4 [1; 2; 3]; Mo 7 8 [1; 1; 4]; Mo 1421 18 [4; 4]; Mo 175 1 [3; 5]; Mo 242 1 [2; 6]; Mo 2717 6 [1; 7]; Mo (-184756) 1 [10]]; [Mo (-25) 4 [2; 2; 3]; Mo (-125) 16 [1; 3; 3]; Mo (-35) 2 [1; 2; 4]; Mo (-105) 8 [1; 1; 5]; Mo (-2646) 1 [4; 5]; Mo (-3135) 1 [3; 6]; Mo (-9009) 2 [2; 7]; Mo (-33605) 4 [1; 8]; Mo 3879876 1 [11]]; [Mo 645 16 [2; 3; 3]; Mo 361 8 [2; 2; 4]; Mo 899 8 [1; 3; 4]; Mo 539 4 [1; 2; 5]; Mo 843 8 [1; 1; 6]; Mo 22589 2 [5; 5]; Mo 24210 1 [4; 6]; Mo 29997 1 [3; 7]; Mo 176033 4 [2; 8]; Mo 326755 4 [1; 9]; Mo (-42678636) 1 [12]]; [Mo (-2875) 48 [3; 3; 3]; Mo (-3215) 8 [2; 3; 4]; Mo (-4445) 16 [1; 4; 4]; Mo (-1925) 8 [2; 2; 5]; Mo (-595) 1 [1; 3; 5]; Mo (-2985) 4 [1; 2; 6]; Mo (-4785) 8 [1; 1; 7]; Mo (-141015) 1 [5; 6]; Mo (-158620) 1 [4; 7]; Mo (-810095) 4 [3; 8]; Mo (-1201915) 4 [2; 9]; Mo (-6648785) 12 [1; 10]; Mo 327202876 1 [13]]; [Mo 11159 16 [3; 3; 4]; Mo 12461 16 [2; 4; 4]; Mo 6669 4 [2; 3; 5]; Mo 9121 4 [1; 4; 5]; Mo 8347 8 [2; 2; 6]; Mo 10223 4 [1; 3; 6]; Mo 13227 4 [1; 2; 7]; Mo 21483 8 [1; 1; 8]; Mo 677005 2 [6; 6]; Mo 1423035 2 [5; 7]; Mo 3313475 4 [4; 8]; Mo 4316455 4 [3; 9]; Mo 6441435 4 [2; 10]; Mo 11778195 4 [1; 11]]]];
 [[[Mo 5 4 [2; 2; 3]; Mo 25 16 [1; 3; 3]; Mo 7 2 [1; 2; 4]; Mo 21 8 [1; 1; 5]; Mo (-2205) 2 [4; 5]; Mo (-2409) 2 [3; 6]; Mo (-29601) 20 [2; 7]; Mo (-9009) 4 [1; 8]; Mo 793611 1 [11]]; [Mo (-275) 16 [2; 3; 3]; Mo (-77) 4 [2; 2; 4]; Mo (-385) 8 [1; 3; 4]; Mo (-231) 4 [1; 2; 5]; Mo (-363) 8 [1; 1; 6]; Mo 19845 2 [5; 5]; Mo 20559 1 [4; 6]; Mo 92235 4 [3; 7]; Mo 57915 2 [2; 8]; Mo 177463 4 [1; 9]; Mo (-18253053) 1 [12]]; [Mo 325 8 [3; 3; 3]; Mo 2183 8 [2; 3; 4]; Mo 3045 16 [1; 4; 4]; Mo 1309 8 [2; 2; 5]; Mo 1631 4 [1; 3; 5]; Mo 2049 4 [1; 2; 6]; Mo 6633 16 [1; 1; 7]; Mo (-192486) 1 [5; 6]; Mo (-818301) 4 [4; 7]; Mo (-936507) 4 [3; 8]; Mo (-1194193) 4 [2; 9]; Mo (-1840267) 4 [1; 10]; Mo 219036636 1 [13]]; [Mo (-5335) 8 [3; 3; 4]; Mo (-11935) 16 [2; 4; 4]; Mo (-6391) 4 [2; 3; 5]; Mo (-8855) 4 [1; 4; 5]; Mo (-8019) 8 [2; 2; 6]; Mo (-9933) 4 [1; 3; 6]; Mo (-25773) 8 [1; 2; 7]; Mo (-42471) 16 [1; 1; 8]; Mo 1293831 2 [6; 6]; Mo 5308149 4 [5; 7]; Mo 5752461 4 [4; 8]; Mo 3343769 2 [3; 9]; Mo 8622757 4 [2; 10]; Mo 13348621 4 [1; 11]]];
  [[Mo 49 2 [4; 4]; Mo 105 2 [3; 5]; Mo 66 1 [2; 6]; Mo 429 4 [1; 7]; Mo (-37791) 1 [10]]; [Mo (-1617) 2 [4; 5]; Mo (-1815) 2 [3; 6]; Mo (-4719) 4 [2; 7]; Mo (-7865) 4 [1; 8]; Mo 793611 1 [11]]; [Mo 6909 2 [5; 5]; Mo 14475 2 [4; 6]; Mo 16797 2 [3; 7]; Mo 44759 4 [2; 8]; Mo 37895 2 [1; 9]; Mo (-8729721) 1 [12]]; [Mo (-42735) 1 [5; 6]; Mo (-92565) 2 [4; 7]; Mo (-55055) 1 [3; 8]; Mo (-149435) 2 [2; 9]; Mo (-255255) 2 [1; 10]; Mo 66927861 1 [13]]];
  [[Mo 1 16 [1; 1; 2; 2]; Mo 5 96 [1; 1; 1; 3]; Mo 75 112 [2; 3; 3]; Mo 29 20 [2; 2; 4]; Mo 77 12 [1; 3; 4]; Mo 87 8 [1; 2; 5]; Mo 55 4 [1; 1; 6]; Mo (-95256) 11 [5; 5]; Mo (-35973) 2 [4; 6]; Mo (-81315) 4 [3; 7]; Mo (-103545) 4 [2; 8]; Mo (-161993) 4 [1; 9]; Mo 18253053 1 [12]]; [Mo (-11) 24 [1; 2; 2; 2]; Mo (-55) 32 [1; 1; 2; 3]; Mo (-77) 96 [1; 1; 1; 4]; Mo (-375) 112 [3; 3; 3]; Mo (-345) 8 [2; 3; 4]; Mo (-2597) 36 [1; 4; 4]; Mo (-1827) 40 [2; 2; 5]; Mo (-1387) 8 [1; 3; 5]; Mo (-2321) 8 [1; 2; 6]; Mo (-8437) 24 [1; 1; 7]; Mo 704781 2 [5; 6]; Mo 1504503 4 [4; 7]; Mo 868725 2 [3; 8]; Mo 561561 1 [2; 9]; Mo 3539757 4 [1; 10]; Mo (-456326325) 1 [13]]; [Mo 31 48 [2; 2; 2; 2]; Mo 309 32 [1; 2; 2; 3]; Mo 385 64 [1; 1; 3; 3]; Mo 431 32 [1; 1; 2; 4]; Mo 161 24 [1; 1; 1; 5]; Mo 14747 112 [3; 3; 4]; Mo 34313 144 [2; 4; 4]; Mo 5047 8 [2; 3; 5]; Mo 39979 24 [1; 4; 5]; Mo 5087 8 [2; 2; 6]; Mo 17325 8 [1; 3; 6]; Mo 43505 12 [1; 2; 7]; Mo 67925 16 [1; 1; 8]; Mo (-3714417) 2 [6; 6]; Mo (-7633395) 2 [5; 7]; Mo (-4159584) 1 [4; 8]; Mo (-19531083) 4 [3; 9]; Mo (-6384469) 1 [2; 10]; Mo (-10119590) 1 [1; 11]]; [Mo (-1199) 96 [2; 2; 2; 3]; Mo (-1485) 32 [1; 2; 3; 3]; Mo (-1661) 32 [1; 2; 2; 4]; Mo (-2057) 32 [1; 1; 3; 4]; Mo (-77) 1 [1; 1; 2; 5]; Mo (-319) 8 [1; 1; 1; 6]; Mo (-127163) 144 [3; 4; 4]; Mo (-20339) 16 [3; 3; 5]; Mo (-32193) 8 [2; 4; 5]; Mo (-47341) 8 [1; 5; 5]; Mo (-46721) 8 [2; 3; 6]; Mo (-104927) 8 [1; 4; 6]; Mo (-45309) 8 [2; 2; 7]; Mo (-426349) 24 [1; 3; 7]; Mo (-238381) 8 [1; 2; 8]; Mo (-541255) 16 [1; 1; 9]; Mo 27771282 1 [6; 7]; Mo 116513397 4 [5; 8]; Mo 129063935 4 [4; 9]; Mo 153435217 4 [3; 10]; Mo 202370805 4 [2; 11]; Mo 80536820 1 [1; 12]]];
  [[Mo 5 4 [2; 2; 3]; Mo 25 16 [1; 3; 3]; Mo 7 2 [1; 2; 4]; Mo 21 8 [1; 1; 5]; Mo 1029 2 [4; 5]; Mo 1221 2 [3; 6]; Mo 17589 20 [2; 7]; Mo 6721 4 [1; 8]; Mo (-793611) 1 [11]]; [Mo (-275) 16 [2; 3; 3]; Mo (-77) 4 [2; 2; 4]; Mo (-385) 8 [1; 3; 4]; Mo (-231) 4 [1; 2; 5]; Mo (-363) 8 [1; 1; 6]; Mo (-9261) 2 [5; 5]; Mo (-9933) 1 [4; 6]; Mo (-49335) 4 [3; 7]; Mo (-36465) 2 [2; 8]; Mo (-138567) 4 [1; 9]; Mo 18253053 1 [12]]; [Mo 325 8 [3; 3; 3]; Mo 2183 8 [2; 3; 4]; Mo 3045 16 [1; 4; 4]; Mo 1309 8 [2; 2; 5]; Mo 1631 4 [1; 3; 5]; Mo 2049 4 [1; 2; 6]; Mo 6633 16 [1; 1; 7]; Mo 91182 1 [5; 6]; Mo 410817 4 [4; 7]; Mo 526383 4 [3; 8]; Mo 789217 4 [2; 9]; Mo 1490203 4 [1; 10]; Mo (-219036636) 1 [13]]; [Mo (-5335) 8 [3; 3; 4]; Mo (-11935) 16 [2; 4; 4]; Mo (-6391) 4 [2; 3; 5]; Mo (-8855) 4 [1; 4; 5]; Mo (-8019) 8 [2; 2; 6]; Mo (-9933) 4 [1; 3; 6]; Mo (-25773) 8 [1; 2; 7]; Mo (-42471) 16 [1; 1; 8]; Mo (-611919) 2 [6; 6]; Mo (-2574033) 4 [5; 7]; Mo (-3002857) 4 [4; 8]; Mo (-1965821) 2 [3; 9]; Mo (-5938933) 4 [2; 10]; Mo (-11131549) 4 [1; 11]]]];
 [[[Mo 25 8 [2; 3; 3]; Mo 7 2 [2; 2; 4]; Mo 35 4 [1; 3; 4]; Mo 21 2 [1; 2; 5]; Mo 33 4 [1; 1; 6]; Mo (-40131) 22 [5; 5]; Mo (-3780) 1 [4; 6]; Mo (-16965) 4 [3; 7]; Mo (-5330) 1 [2; 8]; Mo (-16575) 2 [1; 9]; Mo 3380195 1 [12]]; [Mo (-125) 8 [3; 3; 3]; Mo (-105) 1 [2; 3; 4]; Mo (-147) 2 [1; 4; 4]; Mo (-63) 1 [2; 2; 5]; Mo (-315) 2 [1; 3; 5]; Mo (-198) 1 [1; 2; 6]; Mo (-1287) 8 [1; 1; 7]; Mo 74151 1 [5; 6]; Mo 315315 4 [4; 7]; Mo 361075 4 [3; 8]; Mo 230945 2 [2; 9]; Mo 180557 1 [1; 10]; Mo (-84504875) 1 [13]]; [Mo 3245 8 [3; 3; 4]; Mo 3633 8 [2; 4; 4]; Mo 973 1 [2; 3; 5]; Mo 1358 1 [1; 4; 5]; Mo 2445 4 [2; 2; 6]; Mo 1524 1 [1; 3; 6]; Mo 1980 1 [1; 2; 7]; Mo 3289 2 [1; 1; 8]; Mo (-781641) 2 [6; 6]; Mo (-801801) 1 [5; 7]; Mo (-3477045) 4 [4; 8]; Mo (-1011725) 1 [3; 9]; Mo (-1310972) 1 [2; 10]; Mo (-4119219) 2 [1; 11]]];
  [[Mo 147 1 [4; 5]; Mo 165 1 [3; 6]; Mo 429 2 [2; 7]; Mo 715 2 [1; 8]; Mo (-146965) 1 [11]]; [Mo (-1323) 1 [5; 5]; Mo (-2772) 1 [4; 6]; Mo (-6435) 2 [3; 7]; Mo (-4290) 1 [2; 8]; Mo (-7293) 1 [1; 9]; Mo 3380195 1 [12]]; [Mo 25788 1 [5; 6]; Mo 55869 2 [4; 7]; Mo 66495 2 [3; 8]; Mo 45188 1 [2; 9]; Mo 77792 1 [1; 10]; Mo (-40562340) 1 [13]]];
  [[Mo 1 12 [1; 2; 2; 2]; Mo 5 16 [1; 1; 2; 3]; Mo 7 48 [1; 1; 1; 4]; Mo 125 336 [3; 3; 3]; Mo 25 4 [2; 3; 4]; Mo 98 9 [1; 4; 4]; Mo 147 20 [2; 2; 5]; Mo 107 4 [1; 3; 5]; Mo 187 4 [1; 2; 6]; Mo 2717 48 [1; 1; 7]; Mo (-64449) 1 [5; 6]; Mo (-275275) 4 [4; 7]; Mo (-318175) 4 [3; 8]; Mo (-206635) 2 [2; 9]; Mo (-495482) 3 [1; 10]; Mo 84504875 1 [13]]; [Mo (-1) 4 [2; 2; 2; 2]; Mo (-15) 4 [1; 2; 2; 3]; Mo (-75) 32 [1; 1; 3; 3]; Mo (-21) 4 [1; 1; 2; 4]; Mo (-21) 8 [1; 1; 1; 5]; Mo (-625) 16 [3; 3; 4]; Mo (-917) 12 [2; 4; 4]; Mo (-210) 1 [2; 3; 5]; Mo (-567) 1 [1; 4; 5]; Mo (-2211) 10 [2; 2; 6]; Mo (-3003) 4 [1; 3; 6]; Mo (-25597) 20 [1; 2; 7]; Mo (-24167) 16 [1; 1; 8]; Mo 708939 1 [6; 6]; Mo 5828823 4 [5; 7]; Mo 3178175 2 [4; 8]; Mo 7475325 4 [3; 9]; Mo 4917029 2 [2; 10]; Mo 7906717 2 [1; 11]]; [Mo 123 16 [2; 2; 2; 3]; Mo 115 4 [1; 2; 3; 3]; Mo 515 16 [1; 2; 2; 4]; Mo 321 8 [1; 1; 3; 4]; Mo 385 8 [1; 1; 2; 5]; Mo 201 8 [1; 1; 1; 6]; Mo 20761 48 [3; 4; 4]; Mo 2627 4 [3; 3; 5]; Mo 8491 4 [2; 4; 5]; Mo 13139 4 [1; 5; 5]; Mo 3177 1 [2; 3; 6]; Mo 14643 2 [1; 4; 6]; Mo 252021 80 [2; 2; 7]; Mo 80333 8 [1; 3; 7]; Mo 67925 4 [1; 2; 8]; Mo 78221 4 [1; 1; 9]; Mo (-66266739) 4 [6; 7]; Mo (-69530461) 4 [5; 8]; Mo (-77094875) 4 [4; 9]; Mo (-91905281) 4 [3; 10]; Mo (-61040863) 2 [2; 11]; Mo (-98613515) 2 [1; 12]]];
  [[Mo 25 8 [2; 3; 3]; Mo 7 2 [2; 2; 4]; Mo 35 4 [1; 3; 4]; Mo 21 2 [1; 2; 5]; Mo 33 4 [1; 1; 6]; Mo 18081 22 [5; 5]; Mo 1764 1 [4; 6]; Mo 8775 4 [3; 7]; Mo 3250 1 [2; 8]; Mo 12597 2 [1; 9]; Mo (-3380195) 1 [12]]; [Mo (-125) 8 [3; 3; 3]; Mo (-105) 1 [2; 3; 4]; Mo (-147) 2 [1; 4; 4]; Mo (-63) 1 [2; 2; 5]; Mo (-315) 2 [1; 3; 5]; Mo (-198) 1 [1; 2; 6]; Mo (-1287) 8 [1; 1; 7]; Mo (-33957) 1 [5; 6]; Mo (-153153) 4 [4; 7]; Mo (-196625) 4 [3; 8]; Mo (-148291) 2 [2; 9]; Mo (-142766) 1 [1; 10]; Mo 84504875 1 [13]]; [Mo 3245 8 [3; 3; 4]; Mo 3633 8 [2; 4; 4]; Mo 973 1 [2; 3; 5]; Mo 1358 1 [1; 4; 5]; Mo 2445 4 [2; 2; 6]; Mo 1524 1 [1; 3; 6]; Mo 1980 1 [1; 2; 7]; Mo 3289 2 [1; 1; 8]; Mo 357651 2 [6; 6]; Mo 376299 1 [5; 7]; Mo 1758471 4 [4; 8]; Mo 577291 1 [3; 9]; Mo 879359 1 [2; 10]; Mo 3363399 2 [1; 11]]]];
 [[[Mo 125 48 [3; 3; 3]; Mo 35 2 [2; 3; 4]; Mo 49 4 [1; 4; 4]; Mo 21 2 [2; 2; 5]; Mo 105 4 [1; 3; 5]; Mo 33 1 [1; 2; 6]; Mo 429 16 [1; 1; 7]; Mo (-12474) 1 [5; 6]; Mo (-53053) 4 [4; 7]; Mo (-60775) 4 [3; 8]; Mo (-19448) 1 [2; 9]; Mo (-92378) 3 [1; 10]; Mo 14300825 1 [13]]; [Mo (-2275) 16 [3; 3; 4]; Mo (-637) 4 [2; 4; 4]; Mo (-1365) 4 [2; 3; 5]; Mo (-1911) 4 [1; 4; 5]; Mo (-429) 2 [2; 2; 6]; Mo (-2145) 4 [1; 3; 6]; Mo (-5577) 8 [1; 2; 7]; Mo (-9295) 16 [1; 1; 8]; Mo 137214 1 [6; 6]; Mo 1126125 4 [5; 7]; Mo 305305 1 [4; 8]; Mo 1422135 4 [3; 9]; Mo 461890 1 [2; 10]; Mo 734825 1 [1; 11]]];
  [[Mo 441 2 [5; 5]; Mo 462 1 [4; 6]; Mo 2145 4 [3; 7]; Mo 715 1 [2; 8]; Mo 2431 2 [1; 9]; Mo (-572033) 1 [12]]; [Mo (-9009) 1 [5; 6]; Mo (-39039) 4 [4; 7]; Mo (-46475) 4 [3; 8]; Mo (-31603) 2 [2; 9]; Mo (-54587) 2 [1; 10]; Mo 14300825 1 [13]]];
  [[Mo 1 24 [2; 2; 2; 2]; Mo 5 8 [1; 2; 2; 3]; Mo 25 64 [1; 1; 3; 3]; Mo 7 8 [1; 1; 2; 4]; Mo 7 16 [1; 1; 1; 5]; Mo 75 16 [3; 3; 4]; Mo 385 36 [2; 4; 4]; Mo 245 8 [2; 3; 5]; Mo 329 4 [1; 4; 5]; Mo 341 10 [2; 2; 6]; Mo 891 8 [1; 3; 6]; Mo 5863 30 [1; 2; 7]; Mo 11011 48 [1; 1; 8]; Mo (-3087315) 26 [6; 6]; Mo (-976437) 4 [5; 7]; Mo (-1065295) 4 [4; 8]; Mo (-1253835) 4 [3; 9]; Mo (-827849) 2 [2; 10]; Mo (-673778) 1 [1; 11]]; [Mo (-65) 24 [2; 2; 2; 3]; Mo (-325) 32 [1; 2; 3; 3]; Mo (-91) 8 [1; 2; 2; 4]; Mo (-455) 32 [1; 1; 3; 4]; Mo (-273) 16 [1; 1; 2; 5]; Mo (-143) 16 [1; 1; 1; 6]; Mo (-8575) 72 [3; 4; 4]; Mo (-3125) 16 [3; 3; 5]; Mo (-5229) 8 [2; 4; 5]; Mo (-45801) 44 [1; 5; 5]; Mo (-1012) 1 [2; 3; 6]; Mo (-18683) 8 [1; 4; 6]; Mo (-5148) 5 [2; 2; 7]; Mo (-78091) 24 [1; 3; 7]; Mo (-44603) 8 [1; 2; 8]; Mo (-309179) 48 [1; 1; 9]; Mo 23090067 4 [6; 7]; Mo 12117105 2 [5; 8]; Mo 6721715 1 [4; 9]; Mo 32101355 4 [3; 10]; Mo 21427497 2 [2; 11]; Mo 17525011 1 [1; 12]]];
  [[Mo 125 48 [3; 3; 3]; Mo 35 2 [2; 3; 4]; Mo 49 4 [1; 4; 4]; Mo 21 2 [2; 2; 5]; Mo 105 4 [1; 3; 5]; Mo 33 1 [1; 2; 6]; Mo 429 16 [1; 1; 7]; Mo 5544 1 [5; 6]; Mo 25025 4 [4; 7]; Mo 32175 4 [3; 8]; Mo 12155 1 [2; 9]; Mo 71383 3 [1; 10]; Mo (-14300825) 1 [13]]; [Mo (-2275) 16 [3; 3; 4]; Mo (-637) 4 [2; 4; 4]; Mo (-1365) 4 [2; 3; 5]; Mo (-1911) 4 [1; 4; 5]; Mo (-429) 2 [2; 2; 6]; Mo (-2145) 4 [1; 3; 6]; Mo (-5577) 8 [1; 2; 7]; Mo (-9295) 16 [1; 1; 8]; Mo (-60984) 1 [6; 6]; Mo (-513513) 4 [5; 7]; Mo (-150150) 1 [4; 8]; Mo (-790075) 4 [3; 9]; Mo (-302328) 1 [2; 10]; Mo (-587860) 1 [1; 11]]]];
 [[[Mo 175 8 [3; 3; 4]; Mo 49 2 [2; 4; 4]; Mo 105 2 [2; 3; 5]; Mo 147 2 [1; 4; 5]; Mo 33 1 [2; 2; 6]; Mo 165 2 [1; 3; 6]; Mo 429 4 [1; 2; 7]; Mo 715 8 [1; 1; 8]; Mo (-276606) 13 [6; 6]; Mo (-43659) 1 [5; 7]; Mo (-47355) 1 [4; 8]; Mo (-55165) 1 [3; 9]; Mo (-71706) 1 [2; 10]; Mo (-115311) 1 [1; 11]]];
  [[Mo 1386 1 [5; 6]; Mo 3003 2 [4; 7]; Mo 3575 2 [3; 8]; Mo 2431 1 [2; 9]; Mo 4199 1 [1; 10]; Mo (-2228700) 1 [13]]];
  [[Mo 5 12 [2; 2; 2; 3]; Mo 25 16 [1; 2; 3; 3]; Mo 7 4 [1; 2; 2; 4]; Mo 35 16 [1; 1; 3; 4]; Mo 21 8 [1; 1; 2; 5]; Mo 11 8 [1; 1; 1; 6]; Mo 245 18 [3; 4; 4]; Mo 25 1 [3; 3; 5]; Mo 357 4 [2; 4; 5]; Mo 1575 11 [1; 5; 5]; Mo 143 1 [2; 3; 6]; Mo 1295 4 [1; 4; 6]; Mo 3003 20 [2; 2; 7]; Mo 1378 3 [1; 3; 7]; Mo 3211 4 [1; 2; 8]; Mo 5525 6 [1; 1; 9]; Mo (-891891) 1 [6; 7]; Mo (-1872585) 2 [5; 8]; Mo (-2078505) 2 [4; 9]; Mo (-8691930) 7 [3; 10]; Mo (-1662804) 1 [2; 11]; Mo (-2748730) 1 [1; 12]]];
  [[Mo 175 8 [3; 3; 4]; Mo 49 2 [2; 4; 4]; Mo 105 2 [2; 3; 5]; Mo 147 2 [1; 4; 5]; Mo 33 1 [2; 2; 6]; Mo 165 2 [1; 3; 6]; Mo 429 4 [1; 2; 7]; Mo 715 8 [1; 1; 8]; Mo 119790 13 [6; 6]; Mo 19404 1 [5; 7]; Mo 22715 1 [4; 8]; Mo 29920 1 [3; 9]; Mo 45866 1 [2; 10]; Mo 90440 1 [1; 11]]]]].
(** matslise_formulas.cpp: tDelta(4, 0..16) *)
Definition tdelta_row4 : list (list hentry) := [
 [[];
  [];
  [];
  []];
 [[];
  [];
  [];
  []];
 [[];
  [];
  [];
  []];
 [[];
  [];
  [];
  []];
 [[];
  [];
  [];
  []];
 [[];
  [];
  [];
  []];
 [[];
  [];
  [];
  []];
 [[[Mo 1 2 [1; 2]; Mo (-63) 2 [5]]; [Mo (-3) 2 [2; 2]; Mo (-15) 4 [1; 3]; Mo 693 2 [6]]; [Mo (-1) 16 [1; 1; 1]; Mo 47 4 [2; 3]; Mo 65 4 [1; 4]; Mo (-2079) 1 [7]]; [Mo 5 16 [1; 1; 2]; Mo (-65) 4 [3; 3]; Mo (-145) 4 [2; 4]; Mo (-105) 2 [1; 5]; Mo 9009 1 [8]]; [Mo (-7) 16 [1; 2; 2]; Mo (-1) 2 [1; 1; 3]; Mo 80 1 [3; 4]; Mo 95 1 [2; 5]; Mo 140 1 [1; 6]; Mo (-63063) 2 [9]]; [Mo 3 16 [2; 2; 2]; Mo 5 4 [1; 2; 3]; Mo 3 4 [1; 1; 4]; Mo (-335) 4 [4; 4]; Mo (-715) 4 [3; 5]; Mo (-441) 2 [2; 6]; Mo (-651) 2 [1; 7]; Mo 189189 2 [10]]; [Mo (-3) 4 [2; 2; 3]; Mo (-13) 16 [1; 3; 3]; Mo (-7) 4 [1; 2; 4]; Mo (-17) 16 [1; 1; 5]; Mo 1325 4 [4; 5]; Mo 1475 4 [3; 6]; Mo 931 2 [2; 7]; Mo 1365 2 [1; 8]; Mo (-252252) 1 [11]]; [Mo 15 16 [2; 3; 3]; Mo 1 1 [2; 2; 4]; Mo 17 8 [1; 3; 4]; Mo 19 8 [1; 2; 5]; Mo 23 16 [1; 1; 6]; Mo (-595) 2 [5; 5]; Mo (-2485) 4 [4; 6]; Mo (-2847) 4 [3; 7]; Mo (-1821) 2 [2; 8]; Mo (-1320) 1 [1; 9]; Mo 612612 1 [12]]; [Mo (-3) 8 [3; 3; 3]; Mo (-19) 8 [2; 3; 4]; Mo (-21) 16 [1; 4; 4]; Mo (-21) 16 [2; 2; 5]; Mo (-11) 4 [1; 3; 5]; Mo (-25) 8 [1; 2; 6]; Mo (-15) 8 [1; 1; 7]; Mo 2065 2 [5; 6]; Mo 4445 4 [4; 7]; Mo 5195 4 [3; 8]; Mo 3345 2 [2; 9]; Mo 4785 2 [1; 10]; Mo (-1378377) 1 [13]]; [Mo 11 8 [3; 3; 4]; Mo 23 16 [2; 4; 4]; Mo 3 1 [2; 3; 5]; Mo 13 4 [1; 4; 5]; Mo 27 16 [2; 2; 6]; Mo 7 2 [1; 3; 6]; Mo 4 1 [1; 2; 7]; Mo 19 8 [1; 1; 8]; Mo (-840) 1 [6; 6]; Mo (-3465) 2 [5; 7]; Mo (-7625) 4 [4; 8]; Mo (-9035) 4 [3; 9]; Mo (-2915) 1 [2; 10]; Mo (-16445) 4 [1; 11]]];
  [[Mo (-1) 24 [1; 1]; Mo 7 2 [4]]; [Mo 1 2 [1; 2]; Mo (-63) 2 [5]]; [Mo (-5) 8 [2; 2]; Mo (-7) 4 [1; 3]; Mo 315 2 [6]]; [Mo (-1) 48 [1; 1; 1]; Mo 3 1 [2; 3]; Mo 55 12 [1; 4]; Mo (-1155) 2 [7]]; [Mo 1 16 [1; 1; 2]; Mo (-11) 4 [3; 3]; Mo (-13) 2 [2; 4]; Mo (-10) 1 [1; 5]; Mo 3465 2 [8]]; [Mo (-1) 16 [1; 2; 2]; Mo (-1) 16 [1; 1; 3]; Mo 10 1 [3; 4]; Mo 51 4 [2; 5]; Mo 77 4 [1; 6]; Mo (-9009) 2 [9]]; [Mo 1 48 [2; 2; 2]; Mo 1 8 [1; 2; 3]; Mo 1 16 [1; 1; 4]; Mo (-95) 12 [4; 4]; Mo (-35) 2 [3; 5]; Mo (-23) 1 [2; 6]; Mo (-203) 6 [1; 7]; Mo 21021 2 [10]]; [Mo (-1) 16 [2; 2; 3]; Mo (-1) 16 [1; 3; 3]; Mo (-1) 8 [1; 2; 4]; Mo (-1) 16 [1; 1; 5]; Mo 25 1 [4; 5]; Mo 117 4 [3; 6]; Mo 155 4 [2; 7]; Mo 111 2 [1; 8]; Mo (-45045) 2 [11]]; [Mo 1 16 [2; 3; 3]; Mo 1 16 [2; 2; 4]; Mo 1 8 [1; 3; 4]; Mo 1 8 [1; 2; 5]; Mo 1 16 [1; 1; 6]; Mo (-145) 8 [5; 5]; Mo (-155) 4 [4; 6]; Mo (-187) 4 [3; 7]; Mo (-247) 4 [2; 8]; Mo (-345) 4 [1; 9]; Mo 45045 1 [12]]; [Mo (-1) 48 [3; 3; 3]; Mo (-1) 8 [2; 3; 4]; Mo (-1) 16 [1; 4; 4]; Mo (-1) 16 [2; 2; 5]; Mo (-1) 8 [1; 3; 5]; Mo (-1) 8 [1; 2; 6]; Mo (-1) 16 [1; 1; 7]; Mo 105 2 [5; 6]; Mo 703 12 [4; 7]; Mo 287 4 [3; 8]; Mo 94 1 [2; 9]; Mo 385 3 [1; 10]; Mo (-85085) 1 [13]]];
  [[Mo 57 40 [2; 2]; Mo 4 1 [1; 3]; Mo (-693) 2 [6]]; [Mo 7 48 [1; 1; 1]; Mo (-105) 4 [2; 3]; Mo (-147) 4 [1; 4]; Mo 9009 2 [7]]; [Mo (-29) 24 [1; 1; 2]; Mo 477 8 [3; 3]; Mo 271 2 [2; 4]; Mo 763 4 [1; 5]; Mo (-63063) 2 [8]]; [Mo 41 16 [1; 2; 2]; Mo 17 6 [1; 1; 3]; Mo (-861) 2 [3; 4]; Mo (-1029) 2 [2; 5]; Mo (-2919) 4 [1; 6]; Mo 315315 2 [9]]; [Mo 1 384 [1; 1; 1; 1]; Mo (-3) 2 [2; 2; 2]; Mo (-81) 8 [1; 2; 3]; Mo (-47) 8 [1; 1; 4]; Mo 4875 8 [4; 4]; Mo 2619 2 [3; 5]; Mo 6405 4 [2; 6]; Mo 9135 4 [1; 7]; Mo (-630630) 1 [10]]; [Mo (-1) 96 [1; 1; 1; 2]; Mo 63 8 [2; 2; 3]; Mo 71 8 [1; 3; 3]; Mo 445 24 [1; 2; 4]; Mo 133 12 [1; 1; 5]; Mo (-12495) 4 [4; 5]; Mo (-13965) 4 [3; 6]; Mo (-86457) 20 [2; 7]; Mo (-24717) 4 [1; 8]; Mo 2144142 1 [11]]; [Mo 1 64 [1; 1; 2; 2]; Mo 1 96 [1; 1; 1; 3]; Mo (-201) 16 [2; 3; 3]; Mo (-53) 4 [2; 2; 4]; Mo (-89) 3 [1; 3; 4]; Mo (-255) 8 [1; 2; 5]; Mo (-931) 48 [1; 1; 6]; Mo 28035 8 [5; 5]; Mo 7343 1 [4; 6]; Mo 33565 4 [3; 7]; Mo 41895 4 [2; 8]; Mo 59829 4 [1; 9]; Mo (-6432426) 1 [12]]; [Mo (-1) 96 [1; 2; 2; 2]; Mo (-1) 32 [1; 1; 2; 3]; Mo (-1) 96 [1; 1; 1; 4]; Mo 99 16 [3; 3; 3]; Mo 315 8 [2; 3; 4]; Mo 185 8 [1; 4; 4]; Mo 171 8 [2; 2; 5]; Mo 379 8 [1; 3; 5]; Mo 52 1 [1; 2; 6]; Mo 511 16 [1; 1; 7]; Mo (-14847) 1 [5; 6]; Mo (-16023) 1 [4; 7]; Mo (-74223) 4 [3; 8]; Mo (-93159) 4 [2; 9]; Mo (-132561) 4 [1; 10]; Mo 17459442 1 [13]]; [Mo 1 384 [2; 2; 2; 2]; Mo 1 32 [1; 2; 2; 3]; Mo 1 64 [1; 1; 3; 3]; Mo 1 32 [1; 1; 2; 4]; Mo 1 96 [1; 1; 1; 5]; Mo (-439) 16 [3; 3; 4]; Mo (-1399) 48 [2; 4; 4]; Mo (-60) 1 [2; 3; 5]; Mo (-1675) 24 [1; 4; 5]; Mo (-531) 16 [2; 2; 6]; Mo (-291) 4 [1; 3; 6]; Mo (-487) 6 [1; 2; 7]; Mo (-2401) 48 [1; 1; 8]; Mo 57729 4 [6; 6]; Mo 29827 1 [5; 7]; Mo 65611 2 [4; 8]; Mo 153279 4 [3; 9]; Mo 48279 1 [2; 10]; Mo 273273 4 [1; 11]]; [Mo (-1) 96 [2; 2; 2; 3]; Mo (-1) 32 [1; 2; 3; 3]; Mo (-1) 32 [1; 2; 2; 4]; Mo (-1) 32 [1; 1; 3; 4]; Mo (-1) 32 [1; 1; 2; 5]; Mo (-1) 96 [1; 1; 1; 6]; Mo 1855 48 [3; 4; 4]; Mo 639 16 [3; 3; 5]; Mo 339 4 [2; 4; 5]; Mo 805 16 [1; 5; 5]; Mo 711 8 [2; 3; 6]; Mo 613 6 [1; 4; 6]; Mo 797 16 [2; 2; 7]; Mo 2593 24 [1; 3; 7]; Mo 122 1 [1; 2; 8]; Mo 3607 48 [1; 1; 9]; Mo (-108045) 2 [6; 7]; Mo (-114219) 2 [5; 8]; Mo (-127195) 2 [4; 9]; Mo (-74734) 1 [3; 10]; Mo (-94380) 1 [2; 11]; Mo (-265265) 2 [1; 12]]];
  [[Mo (-1) 2 [1; 2]; Mo 63 2 [5]]; [Mo 3 2 [2; 2]; Mo 15 4 [1; 3]; Mo (-693) 2 [6]]; [Mo 1 16 [1; 1; 1]; Mo (-47) 4 [2; 3]; Mo (-65) 4 [1; 4]; Mo 2079 1 [7]]; [Mo (-5) 16 [1; 1; 2]; Mo 65 4 [3; 3]; Mo 145 4 [2; 4]; Mo 105 2 [1; 5]; Mo (-9009) 1 [8]]; [Mo 7 16 [1; 2; 2]; Mo 1 2 [1; 1; 3]; Mo (-80) 1 [3; 4]; Mo (-95) 1 [2; 5]; Mo (-140) 1 [1; 6]; Mo 63063 2 [9]]; [Mo (-3) 16 [2; 2; 2]; Mo (-5) 4 [1; 2; 3]; Mo (-3) 4 [1; 1; 4]; Mo 335 4 [4; 4]; Mo 715 4 [3; 5]; Mo 441 2 [2; 6]; Mo 651 2 [1; 7]; Mo (-189189) 2 [10]]; [Mo 3 4 [2; 2; 3]; Mo 13 16 [1; 3; 3]; Mo 7 4 [1; 2; 4]; Mo 17 16 [1; 1; 5]; Mo (-1325) 4 [4; 5]; Mo (-1475) 4 [3; 6]; Mo (-931) 2 [2; 7]; Mo (-1365) 2 [1; 8]; Mo 252252 1 [11]]; [Mo (-15) 16 [2; 3; 3]; Mo (-1) 1 [2; 2; 4]; Mo (-17) 8 [1; 3; 4]; Mo (-19) 8 [1; 2; 5]; Mo (-23) 16 [1; 1; 6]; Mo 595 2 [5; 5]; Mo 2485 4 [4; 6]; Mo 2847 4 [3; 7]; Mo 1821 2 [2; 8]; Mo 1320 1 [1; 9]; Mo (-612612) 1 [12]]; [Mo 3 8 [3; 3; 3]; Mo 19 8 [2; 3; 4]; Mo 21 16 [1; 4; 4]; Mo 21 16 [2; 2; 5]; Mo 11 4 [1; 3; 5]; Mo 25 8 [1; 2; 6]; Mo 15 8 [1; 1; 7]; Mo (-2065) 2 [5; 6]; Mo (-4445) 4 [4; 7]; Mo (-5195) 4 [3; 8]; Mo (-3345) 2 [2; 9]; Mo (-4785) 2 [1; 10]; Mo 1378377 1 [13]]; [Mo (-11) 8 [3; 3; 4]; Mo (-23) 16 [2; 4; 4]; Mo (-3) 1 [2; 3; 5]; Mo (-13) 4 [1; 4; 5]; Mo (-27) 16 [2; 2; 6]; Mo (-7) 2 [1; 3; 6]; Mo (-4) 1 [1; 2; 7]; Mo (-19) 8 [1; 1; 8]; Mo 840 1 [6; 6]; Mo 3465 2 [5; 7]; Mo 7625 4 [4; 8]; Mo 9035 4 [3; 9]; Mo 2915 1 [2; 10]; Mo 16445 4 [1; 11]]]];
 [[[Mo 57 40 [2; 2]; Mo 4 1 [1; 3]; Mo (-693) 2 [6]]; [Mo 7 48 [1; 1; 1]; Mo (-105) 4 [2; 3]; Mo (-147) 4 [1; 4]; Mo 9009 2 [7]]; [Mo (-29) 24 [1; 1; 2]; Mo 477 8 [3; 3]; Mo 271 2 [2; 4]; Mo 763 4 [1; 5]; Mo (-63063) 2 [8]]; [Mo 41 16 [1; 2; 2]; Mo 17 6 [1; 1; 3]; Mo (-861) 2 [3; 4]; Mo (-1029) 2 [2; 5]; Mo (-2919) 4 [1; 6]; Mo 315315 2 [9]]; [Mo 1 384 [1; 1; 1; 1]; Mo (-3) 2 [2; 2; 2]; Mo (-81) 8 [1; 2; 3]; Mo (-47) 8 [1; 1; 4]; Mo 4875 8 [4; 4]; Mo 2619 2 [3; 5]; Mo 6405 4 [2; 6]; Mo 9135 4 [1; 7]; Mo (-630630) 1 [10]]; [Mo (-1) 96 [1; 1; 1; 2]; Mo 63 8 [2; 2; 3]; Mo 71 8 [1; 3; 3]; Mo 445 24 [1; 2; 4]; Mo 133 12 [1; 1; 5]; Mo (-12495) 4 [4; 5]; Mo (-13965) 4 [3; 6]; Mo (-86457) 20 [2; 7]; Mo (-24717) 4 [1; 8]; Mo 2144142 1 [11]]; [Mo 1 64 [1; 1; 2; 2]; Mo 1 96 [1; 1; 1; 3]; Mo (-201) 16 [2; 3; 3]; Mo (-53) 4 [2; 2; 4]; Mo (-89) 3 [1; 3; 4]; Mo (-255) 8 [1; 2; 5]; Mo (-931) 48 [1; 1; 6]; Mo 28035 8 [5; 5]; Mo 7343 1 [4; 6]; Mo 33565 4 [3; 7]; Mo 41895 4 [2; 8]; Mo 59829 4 [1; 9]; Mo (-6432426) 1 [12]]; [Mo (-1) 96 [1; 2; 2; 2]; Mo (-1) 32 [1; 1; 2; 3]; Mo (-1) 96 [1; 1; 1; 4]; Mo 99 16 [3; 3; 3]; Mo 315 8 [2; 3; 4]; Mo 185 8 [1; 4; 4]; Mo 171 8 [2; 2; 5]; Mo 379 8 [1; 3; 5]; Mo 52 1 [1; 2; 6]; Mo 511 16 [1; 1; 7]; Mo (-14847) 1 [5; 6]; Mo (-16023) 1 [4; 7]; Mo (-74223) 4 [3; 8]; Mo (-93159) 4 [2; 9]; Mo (-132561) 4 [1; 10]; Mo 17459442 1 [13]]; [Mo 1 384 [2; 2; 2; 2]; Mo 1 32 [1; 2; 2; 3]; Mo 1 64 [1; 1; 3; 3]; Mo 1 32 [1; 1; 2; 4]; Mo 1 96 [1; 1; 1; 5]; Mo (-439) 16 [3; 3; 4]; Mo (-1399) 48 [2; 4; 4]; Mo (-60) 1 [2; 3; 5]; Mo (-1675) 24 [1; 4; 5]; Mo (-531) 16 [2; 2; 6]; Mo (-291) 4 [1; 3; 6]; Mo (-487) 6 [1; 2; 7]; Mo (-2401) 48 [1; 1; 8]; Mo 57729 4 [6; 6]; Mo 29827 1 [5; 7]; Mo 65611 2 [4; 8]; Mo 153279 4 [3; 9]; Mo 48279 1 [2; 10]; Mo 273273 4 [1; 11]]];
  [[Mo (-1) 2 [1; 2]; Mo 63 2 [5]]; [Mo 3 2 [2; 2]; Mo 15 4 [1; 3]; Mo (-693) 2 [6]]; [Mo 1 16 [1; 1; 1]; Mo (-47) 4 [2; 3]; Mo (-65) 4 [1; 4]; Mo 2079 1 [7]]; [Mo (-5) 16 [1; 1; 2]; Mo 65 4 [3; 3]; Mo 145 4 [2; 4]; Mo 105 2 [1; 5]; Mo (-9009) 1 [8]]; [Mo 7 16 [1; 2; 2]; Mo 1 2 [1; 1; 3]; Mo (-80) 1 [3; 4]; Mo (-95) 1 [2; 5]; Mo (-140) 1 [1; 6]; Mo 63063 2 [9]]; [Mo (-3) 16 [2; 2; 2]; Mo (-5) 4 [1; 2; 3]; Mo (-3) 4 [1; 1; 4]; Mo 335 4 [4; 4]; Mo 715 4 [3; 5]; Mo 441 2 [2; 6]; Mo 651 2 [1; 7]; Mo (-189189) 2 [10]]; [Mo 3 4 [2; 2; 3]; Mo 13 16 [1; 3; 3]; Mo 7 4 [1; 2; 4]; Mo 17 16 [1; 1; 5]; Mo (-1325) 4 [4; 5]; Mo (-1475) 4 [3; 6]; Mo (-931) 2 [2; 7]; Mo (-1365) 2 [1; 8]; Mo 252252 1 [11]]; [Mo (-15) 16 [2; 3; 3]; Mo (-1) 1 [2; 2; 4]; Mo (-17) 8 [1; 3; 4]; Mo (-19) 8 [1; 2; 5]; Mo (-23) 16 [1; 1; 6]; Mo 595 2 [5; 5]; Mo 2485 4 [4; 6]; Mo 2847 4 [3; 7]; Mo 1821 2 [2; 8]; Mo 1320 1 [1; 9]; Mo (-612612) 1 [12]]; [Mo 3 8 [3; 3; 3]; Mo 19 8 [2; 3; 4]; Mo 21 16 [1; 4; 4]; Mo 21 16 [2; 2; 5]; Mo 11 4 [1; 3; 5]; Mo 25 8 [1; 2; 6]; Mo 15 8 [1; 1; 7]; Mo (-2065) 2 [5; 6]; Mo (-4445) 4 [4; 7]; Mo (-5195) 4 [3; 8]; Mo (-3345) 2 [2; 9]; Mo (-4785) 2 [1; 10]; Mo 1378377 1 [13]]];
  [[Mo (-7) 48 [1; 1; 1]; Mo 105 4 [2; 3]; Mo 147 4 [1; 4]; Mo (-9009) 2 [7]]; [Mo 41 16 [1; 1; 2]; Mo (-525) 4 [3; 3]; Mo (-294) 1 [2; 4]; Mo (-819) 2 [1; 5]; Mo 135135 2 [8]]; [Mo (-143) 16 [1; 2; 2]; Mo (-157) 16 [1; 1; 3]; Mo 1533 1 [3; 4]; Mo 1806 1 [2; 5]; Mo 2520 1 [1; 6]; Mo (-540540) 1 [9]]; [Mo (-1) 96 [1; 1; 1; 1]; Mo 123 16 [2; 2; 2]; Mo 411 8 [1; 2; 3]; Mo 475 16 [1; 1; 4]; Mo (-12495) 4 [4; 4]; Mo (-6657) 1 [3; 5]; Mo (-16065) 2 [2; 6]; Mo (-45045) 4 [1; 7]; Mo 3063060 1 [10]]; [Mo 1 16 [1; 1; 1; 2]; Mo (-873) 16 [2; 2; 3]; Mo (-491) 8 [1; 3; 3]; Mo (-1025) 8 [1; 2; 4]; Mo (-1225) 16 [1; 1; 5]; Mo 85575 4 [4; 5]; Mo 94605 4 [3; 6]; Mo 115605 4 [2; 7]; Mo 162855 4 [1; 8]; Mo (-13783770) 1 [11]]; [Mo (-1) 8 [1; 1; 2; 2]; Mo (-3) 32 [1; 1; 1; 3]; Mo 903 8 [2; 3; 3]; Mo 1895 16 [2; 2; 4]; Mo 535 2 [1; 3; 4]; Mo 2295 8 [1; 2; 5]; Mo 2807 16 [1; 1; 6]; Mo (-30765) 1 [5; 5]; Mo (-64113) 1 [4; 6]; Mo (-72450) 1 [3; 7]; Mo (-356895) 4 [2; 8]; Mo (-126126) 1 [1; 9]; Mo 52378326 1 [12]]; [Mo 5 48 [1; 2; 2; 2]; Mo 11 32 [1; 1; 2; 3]; Mo 13 96 [1; 1; 1; 4]; Mo (-1119) 16 [3; 3; 3]; Mo (-885) 2 [2; 3; 4]; Mo (-2105) 8 [1; 4; 4]; Mo (-3825) 16 [2; 2; 5]; Mo (-4315) 8 [1; 3; 5]; Mo (-4721) 8 [1; 2; 6]; Mo (-2933) 8 [1; 1; 7]; Mo 161322 1 [5; 6]; Mo 172704 1 [4; 7]; Mo 197820 1 [3; 8]; Mo 489951 2 [2; 9]; Mo 693693 2 [1; 10]; Mo (-174594420) 1 [13]]; [Mo (-1) 32 [2; 2; 2; 2]; Mo (-13) 32 [1; 2; 2; 3]; Mo (-7) 32 [1; 1; 3; 3]; Mo (-15) 32 [1; 1; 2; 4]; Mo (-3) 16 [1; 1; 1; 5]; Mo 6055 16 [3; 3; 4]; Mo 3205 8 [2; 4; 4]; Mo 6585 8 [2; 3; 5]; Mo 7825 8 [1; 4; 5]; Mo 7263 16 [2; 2; 6]; Mo 8157 8 [1; 3; 6]; Mo 2267 2 [1; 2; 7]; Mo 5691 8 [1; 1; 8]; Mo (-189945) 1 [6; 6]; Mo (-391041) 1 [5; 7]; Mo (-426258) 1 [4; 8]; Mo (-1970199) 4 [3; 9]; Mo (-612612) 1 [2; 10]; Mo (-3468465) 4 [1; 11]]; [Mo 5 32 [2; 2; 2; 3]; Mo 1 2 [1; 2; 3; 3]; Mo 17 32 [1; 2; 2; 4]; Mo 9 16 [1; 1; 3; 4]; Mo 5 8 [1; 1; 2; 5]; Mo 1 4 [1; 1; 1; 6]; Mo (-10225) 16 [3; 4; 4]; Mo (-5265) 8 [3; 3; 5]; Mo (-11175) 8 [2; 4; 5]; Mo (-13615) 16 [1; 5; 5]; Mo (-11691) 8 [2; 3; 6]; Mo (-13835) 8 [1; 4; 6]; Mo (-6547) 8 [2; 2; 7]; Mo (-14611) 8 [1; 3; 7]; Mo (-2057) 1 [1; 2; 8]; Mo (-20775) 16 [1; 1; 9]; Mo 1686825 2 [6; 7]; Mo 1772379 2 [5; 8]; Mo 1955835 2 [4; 9]; Mo 2273733 2 [3; 10]; Mo 2837835 2 [2; 11]; Mo 4009005 2 [1; 12]]];
  [[Mo (-63) 40 [2; 2]; Mo (-7) 2 [1; 3]; Mo 693 2 [6]]; [Mo (-5) 48 [1; 1; 1]; Mo 105 4 [2; 3]; Mo 133 4 [1; 4]; Mo (-9009) 2 [7]]; [Mo 11 12 [1; 1; 2]; Mo (-483) 8 [3; 3]; Mo (-259) 2 [2; 4]; Mo (-707) 4 [1; 5]; Mo 63063 2 [8]]; [Mo (-31) 16 [1; 2; 2]; Mo (-55) 24 [1; 1; 3]; Mo 427 1 [3; 4]; Mo 483 1 [2; 5]; Mo 2751 4 [1; 6]; Mo (-315315) 2 [9]]; [Mo 1 384 [1; 1; 1; 1]; Mo 9 8 [2; 2; 2]; Mo 63 8 [1; 2; 3]; Mo 5 1 [1; 1; 4]; Mo (-4865) 8 [4; 4]; Mo (-2541) 2 [3; 5]; Mo (-5985) 4 [2; 6]; Mo (-8715) 4 [1; 7]; Mo 630630 1 [10]]; [Mo (-1) 96 [1; 1; 1; 2]; Mo (-6) 1 [2; 2; 3]; Mo (-55) 8 [1; 3; 3]; Mo (-359) 24 [1; 2; 4]; Mo (-235) 24 [1; 1; 5]; Mo 12355 4 [4; 5]; Mo 13335 4 [3; 6]; Mo 80913 20 [2; 7]; Mo 23793 4 [1; 8]; Mo (-2144142) 1 [11]]; [Mo 1 64 [1; 1; 2; 2]; Mo 1 96 [1; 1; 1; 3]; Mo 153 16 [2; 3; 3]; Mo 83 8 [2; 2; 4]; Mo 70 3 [1; 3; 4]; Mo 213 8 [1; 2; 5]; Mo 845 48 [1; 1; 6]; Mo (-27825) 8 [5; 5]; Mo (-14329) 2 [4; 6]; Mo (-31745) 4 [3; 7]; Mo (-39375) 4 [2; 8]; Mo (-57981) 4 [1; 9]; Mo 6432426 1 [12]]; [Mo (-1) 96 [1; 2; 2; 2]; Mo (-1) 32 [1; 1; 2; 3]; Mo (-1) 96 [1; 1; 1; 4]; Mo (-75) 16 [3; 3; 3]; Mo (-243) 8 [2; 3; 4]; Mo (-145) 8 [1; 4; 4]; Mo (-69) 4 [2; 2; 5]; Mo (-305) 8 [1; 3; 5]; Mo (-179) 4 [1; 2; 6]; Mo (-473) 16 [1; 1; 7]; Mo 14658 1 [5; 6]; Mo 15442 1 [4; 7]; Mo 69867 4 [3; 8]; Mo 88011 4 [2; 9]; Mo 129129 4 [1; 10]; Mo (-17459442) 1 [13]]; [Mo 1 384 [2; 2; 2; 2]; Mo 1 32 [1; 2; 2; 3]; Mo 1 64 [1; 1; 3; 3]; Mo 1 32 [1; 1; 2; 4]; Mo 1 96 [1; 1; 1; 5]; Mo 335 16 [3; 3; 4]; Mo 1079 48 [2; 4; 4]; Mo 189 4 [2; 3; 5]; Mo 1325 24 [1; 4; 5]; Mo 441 16 [2; 2; 6]; Mo 60 1 [1; 3; 6]; Mo 859 12 [1; 2; 7]; Mo 2255 48 [1; 1; 8]; Mo (-57141) 4 [6; 6]; Mo (-29183) 1 [5; 7]; Mo (-62629) 2 [4; 8]; Mo (-144081) 4 [3; 9]; Mo (-91707) 2 [2; 10]; Mo (-267267) 4 [1; 11]]]];
 [[[Mo (-1) 12 [1; 1; 1]; Mo 15 1 [2; 3]; Mo 21 1 [1; 4]; Mo (-2574) 1 [7]]; [Mo 3 2 [1; 1; 2]; Mo (-75) 1 [3; 3]; Mo (-168) 1 [2; 4]; Mo (-945) 4 [1; 5]; Mo 38610 1 [8]]; [Mo (-21) 4 [1; 2; 2]; Mo (-47) 8 [1; 1; 3]; Mo 876 1 [3; 4]; Mo 4137 4 [2; 5]; Mo 5859 4 [1; 6]; Mo (-308880) 1 [9]]; [Mo (-1) 96 [1; 1; 1; 1]; Mo 9 2 [2; 2; 2]; Mo 61 2 [1; 2; 3]; Mo 145 8 [1; 1; 4]; Mo (-1785) 1 [4; 4]; Mo (-15225) 4 [3; 5]; Mo (-18459) 4 [2; 6]; Mo (-13167) 2 [1; 7]; Mo 1750320 1 [10]]; [Mo 1 16 [1; 1; 1; 2]; Mo (-257) 8 [2; 2; 3]; Mo (-73) 2 [1; 3; 3]; Mo (-77) 1 [1; 2; 4]; Mo (-95) 2 [1; 1; 5]; Mo 48909 4 [4; 5]; Mo 54159 4 [3; 6]; Mo 33327 2 [2; 7]; Mo 47817 2 [1; 8]; Mo (-7876440) 1 [11]]; [Mo (-1) 8 [1; 1; 2; 2]; Mo (-3) 32 [1; 1; 1; 3]; Mo 133 2 [2; 3; 3]; Mo 563 8 [2; 2; 4]; Mo 160 1 [1; 3; 4]; Mo 349 2 [1; 2; 5]; Mo 441 4 [1; 1; 6]; Mo (-70329) 4 [5; 5]; Mo (-146643) 4 [4; 6]; Mo (-83097) 2 [3; 7]; Mo (-103257) 2 [2; 8]; Mo (-297297) 4 [1; 9]; Mo 29930472 1 [12]]; [Mo 5 48 [1; 2; 2; 2]; Mo 11 32 [1; 1; 2; 3]; Mo 13 96 [1; 1; 1; 4]; Mo (-329) 8 [3; 3; 3]; Mo (-262) 1 [2; 3; 4]; Mo (-315) 2 [1; 4; 4]; Mo (-287) 2 [2; 2; 5]; Mo (-325) 1 [1; 3; 5]; Mo (-363) 1 [1; 2; 6]; Mo (-931) 4 [1; 1; 7]; Mo 92211 1 [5; 6]; Mo 197673 2 [4; 7]; Mo 227367 2 [3; 8]; Mo 568953 4 [2; 9]; Mo 819819 4 [1; 10]; Mo (-99768240) 1 [13]]; [Mo (-1) 32 [2; 2; 2; 2]; Mo (-13) 32 [1; 2; 2; 3]; Mo (-7) 32 [1; 1; 3; 3]; Mo (-15) 32 [1; 1; 2; 4]; Mo (-3) 16 [1; 1; 1; 5]; Mo 1785 8 [3; 3; 4]; Mo 475 2 [2; 4; 4]; Mo 1963 4 [2; 3; 5]; Mo 1175 2 [1; 4; 5]; Mo 1101 4 [2; 2; 6]; Mo 2477 4 [1; 3; 6]; Mo 2817 4 [1; 2; 7]; Mo 1821 4 [1; 1; 8]; Mo (-434259) 4 [6; 6]; Mo (-894411) 4 [5; 7]; Mo (-488439) 2 [4; 8]; Mo (-1134837) 4 [3; 9]; Mo (-1427283) 4 [2; 10]; Mo (-513513) 1 [1; 11]]];
  [[Mo (-9) 10 [2; 2]; Mo (-2) 1 [1; 3]; Mo 198 1 [6]]; [Mo (-1) 16 [1; 1; 1]; Mo 15 1 [2; 3]; Mo 77 4 [1; 4]; Mo (-2574) 1 [7]]; [Mo 9 16 [1; 1; 2]; Mo (-69) 2 [3; 3]; Mo (-297) 4 [2; 4]; Mo (-413) 4 [1; 5]; Mo 18018 1 [8]]; [Mo (-19) 16 [1; 2; 2]; Mo (-23) 16 [1; 1; 3]; Mo 977 4 [3; 4]; Mo 1113 4 [2; 5]; Mo 1617 4 [1; 6]; Mo (-90090) 1 [9]]; [Mo 11 16 [2; 2; 2]; Mo 39 8 [1; 2; 3]; Mo 51 16 [1; 1; 4]; Mo (-1391) 4 [4; 4]; Mo (-2913) 4 [3; 5]; Mo (-3465) 4 [2; 6]; Mo (-5145) 4 [1; 7]; Mo 360360 1 [10]]; [Mo (-59) 16 [2; 2; 3]; Mo (-17) 4 [1; 3; 3]; Mo (-75) 8 [1; 2; 4]; Mo (-101) 16 [1; 1; 5]; Mo 3535 2 [4; 5]; Mo 7665 4 [3; 6]; Mo 47061 20 [2; 7]; Mo 14091 4 [1; 8]; Mo (-1225224) 1 [11]]; [Mo 47 8 [2; 3; 3]; Mo 103 16 [2; 2; 4]; Mo 29 2 [1; 3; 4]; Mo 135 8 [1; 2; 5]; Mo 183 16 [1; 1; 6]; Mo (-7959) 4 [5; 5]; Mo (-8211) 2 [4; 6]; Mo (-18305) 4 [3; 7]; Mo (-22995) 4 [2; 8]; Mo (-34419) 4 [1; 9]; Mo 3675672 1 [12]]; [Mo (-23) 8 [3; 3; 3]; Mo (-75) 4 [2; 3; 4]; Mo (-45) 4 [1; 4; 4]; Mo (-173) 16 [2; 2; 5]; Mo (-191) 8 [1; 3; 5]; Mo (-229) 8 [1; 2; 6]; Mo (-309) 16 [1; 1; 7]; Mo 16779 2 [5; 6]; Mo 17731 2 [4; 7]; Mo 40419 4 [3; 8]; Mo 51579 4 [2; 9]; Mo 76791 4 [1; 10]; Mo (-9976824) 1 [13]]];
  [[Mo (-27) 20 [1; 1; 2]; Mo 1065 14 [3; 3]; Mo 165 1 [2; 4]; Mo 459 2 [1; 5]; Mo (-38610) 1 [8]]; [Mo 819 80 [1; 2; 2]; Mo 23 2 [1; 1; 3]; Mo (-1890) 1 [3; 4]; Mo (-4347) 2 [2; 5]; Mo (-12177) 4 [1; 6]; Mo 656370 1 [9]]; [Mo 1 96 [1; 1; 1; 1]; Mo (-1143) 80 [2; 2; 2]; Mo (-3883) 40 [1; 2; 3]; Mo (-463) 8 [1; 1; 4]; Mo 12405 2 [4; 4]; Mo 13062 1 [3; 5]; Mo 62073 4 [2; 6]; Mo 87615 4 [1; 7]; Mo (-5907330) 1 [10]]; [Mo (-11) 96 [1; 1; 1; 2]; Mo 11769 80 [2; 2; 3]; Mo 2683 16 [1; 3; 3]; Mo 2835 8 [1; 2; 4]; Mo 1757 8 [1; 1; 5]; Mo (-60165) 1 [4; 5]; Mo (-262287) 4 [3; 6]; Mo (-317691) 4 [2; 7]; Mo (-451737) 4 [1; 8]; Mo 37413090 1 [11]]; [Mo 31 96 [1; 1; 2; 2]; Mo 29 96 [1; 1; 1; 3]; Mo (-32733) 80 [2; 3; 3]; Mo (-34691) 80 [2; 2; 4]; Mo (-7939) 8 [1; 3; 4]; Mo (-8675) 8 [1; 2; 5]; Mo (-5523) 8 [1; 1; 6]; Mo 230115 2 [5; 5]; Mo 952599 4 [4; 6]; Mo 1062855 4 [3; 7]; Mo 1303533 4 [2; 8]; Mo 1864863 4 [1; 9]; Mo (-187065450) 1 [12]]; [Mo (-1) 3840 [1; 1; 1; 1; 1]; Mo (-11) 32 [1; 2; 2; 2]; Mo (-4) 3 [1; 1; 2; 3]; Mo (-67) 96 [1; 1; 1; 4]; Mo 5199 16 [3; 3; 3]; Mo 16575 8 [2; 3; 4]; Mo 20167 16 [1; 4; 4]; Mo 90951 80 [2; 2; 5]; Mo 20827 8 [1; 3; 5]; Mo 29127 10 [1; 2; 6]; Mo 75579 40 [1; 1; 7]; Mo (-3059487) 4 [5; 6]; Mo (-3244167) 4 [4; 7]; Mo (-3679137) 4 [3; 8]; Mo (-4552119) 4 [2; 9]; Mo (-3270267) 2 [1; 10]; Mo 785674890 1 [13]]; [Mo 1 768 [1; 1; 1; 1; 2]; Mo 1 8 [2; 2; 2; 2]; Mo 59 32 [1; 2; 2; 3]; Mo 53 48 [1; 1; 3; 3]; Mo 43 16 [1; 1; 2; 4]; Mo 137 96 [1; 1; 1; 5]; Mo (-35087) 16 [3; 3; 4]; Mo (-37377) 16 [2; 4; 4]; Mo (-38655) 8 [2; 3; 5]; Mo (-47035) 8 [1; 4; 5]; Mo (-217269) 80 [2; 2; 6]; Mo (-6205) 1 [1; 3; 6]; Mo (-35343) 5 [1; 2; 7]; Mo (-37149) 8 [1; 1; 8]; Mo 4440177 4 [6; 6]; Mo 9099891 4 [5; 7]; Mo 9821889 4 [4; 8]; Mo 11268873 4 [3; 9]; Mo 7018011 2 [2; 10]; Mo 5054049 1 [1; 11]]; [Mo (-1) 384 [1; 1; 1; 2; 2]; Mo (-1) 768 [1; 1; 1; 1; 3]; Mo (-13) 16 [2; 2; 2; 3]; Mo (-91) 32 [1; 2; 3; 3]; Mo (-323) 96 [1; 2; 2; 4]; Mo (-61) 16 [1; 1; 3; 4]; Mo (-61) 12 [1; 1; 2; 5]; Mo (-127) 48 [1; 1; 1; 6]; Mo 71917 16 [3; 4; 4]; Mo 74475 16 [3; 3; 5]; Mo 79485 8 [2; 4; 5]; Mo 99883 16 [1; 5; 5]; Mo 420333 40 [2; 3; 6]; Mo 51009 4 [1; 4; 6]; Mo 481029 80 [2; 2; 7]; Mo 273529 20 [1; 3; 7]; Mo 79026 5 [1; 2; 8]; Mo 83721 8 [1; 1; 9]; Mo (-11842299) 2 [6; 7]; Mo (-24714837) 4 [5; 8]; Mo (-27030465) 4 [4; 9]; Mo (-54737397) 7 [3; 10]; Mo (-9791496) 1 [2; 11]; Mo (-14111955) 1 [1; 12]]];
  [[Mo 1 24 [1; 1; 1]; Mo (-15) 1 [2; 3]; Mo (-35) 2 [1; 4]; Mo 2574 1 [7]]; [Mo (-7) 8 [1; 1; 2]; Mo 75 1 [3; 3]; Mo 315 2 [2; 4]; Mo 819 4 [1; 5]; Mo (-38610) 1 [8]]; [Mo 25 8 [1; 2; 2]; Mo 31 8 [1; 1; 3]; Mo (-855) 1 [3; 4]; Mo (-3759) 4 [2; 5]; Mo (-5229) 4 [1; 6]; Mo 308880 1 [9]]; [Mo (-1) 96 [1; 1; 1; 1]; Mo (-21) 8 [2; 2; 2]; Mo (-77) 4 [1; 2; 3]; Mo (-105) 8 [1; 1; 4]; Mo 1750 1 [4; 4]; Mo 14469 4 [3; 5]; Mo 16569 4 [2; 6]; Mo 6006 1 [1; 7]; Mo (-1750320) 1 [10]]; [Mo 1 16 [1; 1; 1; 2]; Mo 155 8 [2; 2; 3]; Mo 93 4 [1; 3; 3]; Mo 207 4 [1; 2; 4]; Mo 295 8 [1; 1; 5]; Mo (-47439) 4 [4; 5]; Mo (-50379) 4 [3; 6]; Mo (-14931) 1 [2; 7]; Mo (-22176) 1 [1; 8]; Mo 7876440 1 [11]]; [Mo (-1) 8 [1; 1; 2; 2]; Mo (-3) 32 [1; 1; 1; 3]; Mo (-161) 4 [2; 3; 3]; Mo (-357) 8 [2; 2; 4]; Mo (-105) 1 [1; 3; 4]; Mo (-497) 4 [1; 2; 5]; Mo (-721) 8 [1; 1; 6]; Mo 68439 4 [5; 5]; Mo 140049 4 [4; 6]; Mo 76167 2 [3; 7]; Mo 46431 1 [2; 8]; Mo 279279 4 [1; 9]; Mo (-29930472) 1 [12]]; [Mo 5 48 [1; 2; 2; 2]; Mo 11 32 [1; 1; 2; 3]; Mo 13 96 [1; 1; 1; 4]; Mo 197 8 [3; 3; 3]; Mo 163 1 [2; 3; 4]; Mo 415 4 [1; 4; 4]; Mo 767 8 [2; 2; 5]; Mo 885 4 [1; 3; 5]; Mo 1087 4 [1; 2; 6]; Mo 791 4 [1; 1; 7]; Mo (-89187) 1 [5; 6]; Mo (-185927) 2 [4; 7]; Mo (-206577) 2 [3; 8]; Mo (-514899) 4 [2; 9]; Mo (-777777) 4 [1; 10]; Mo 99768240 1 [13]]; [Mo (-1) 32 [2; 2; 2; 2]; Mo (-13) 32 [1; 2; 2; 3]; Mo (-7) 32 [1; 1; 3; 3]; Mo (-15) 32 [1; 1; 2; 4]; Mo (-3) 16 [1; 1; 1; 5]; Mo (-1085) 8 [3; 3; 4]; Mo (-595) 4 [2; 4; 4]; Mo (-1267) 4 [2; 3; 5]; Mo (-1575) 4 [1; 4; 5]; Mo (-1545) 8 [2; 2; 6]; Mo (-1751) 4 [1; 3; 6]; Mo (-550) 1 [1; 2; 7]; Mo (-1593) 4 [1; 1; 8]; Mo 421029 4 [6; 6]; Mo 856233 4 [5; 7]; Mo 453537 2 [4; 8]; Mo 1026729 4 [3; 9]; Mo 1301157 4 [2; 10]; Mo 981981 2 [1; 11]]]];
 [[[Mo (-29) 48 [1; 1; 2]; Mo 1775 56 [3; 3]; Mo 275 4 [2; 4]; Mo 393 4 [1; 5]; Mo (-32175) 2 [8]]; [Mo 183 40 [1; 2; 2]; Mo 253 48 [1; 1; 3]; Mo (-1575) 2 [3; 4]; Mo (-1827) 2 [2; 5]; Mo (-5247) 4 [1; 6]; Mo 546975 2 [9]]; [Mo 1 64 [1; 1; 1; 1]; Mo (-511) 80 [2; 2; 2]; Mo (-351) 8 [1; 2; 3]; Mo (-27) 1 [1; 1; 4]; Mo 20675 8 [4; 4]; Mo 21833 4 [3; 5]; Mo 6567 1 [2; 6]; Mo 18975 2 [1; 7]; Mo (-4922775) 2 [10]]; [Mo (-7) 48 [1; 1; 1; 2]; Mo 5291 80 [2; 2; 3]; Mo 303 4 [1; 3; 3]; Mo 487 3 [1; 2; 4]; Mo 623 6 [1; 1; 5]; Mo (-25095) 1 [4; 5]; Mo (-110037) 4 [3; 6]; Mo (-135201) 4 [2; 7]; Mo (-98241) 2 [1; 8]; Mo 31177575 2 [11]]; [Mo 13 32 [1; 1; 2; 2]; Mo 31 96 [1; 1; 1; 3]; Mo (-184) 1 [2; 3; 3]; Mo (-1967) 10 [2; 2; 4]; Mo (-10825) 24 [1; 3; 4]; Mo (-4023) 8 [1; 2; 5]; Mo (-15827) 48 [1; 1; 6]; Mo 47980 1 [5; 5]; Mo 398129 4 [4; 6]; Mo 447765 4 [3; 7]; Mo 557403 4 [2; 8]; Mo 813813 4 [1; 9]; Mo (-155887875) 2 [12]]; [Mo (-7) 16 [1; 2; 2; 2]; Mo (-49) 32 [1; 1; 2; 3]; Mo (-21) 32 [1; 1; 1; 4]; Mo 146 1 [3; 3; 3]; Mo 7487 8 [2; 3; 4]; Mo 4581 8 [1; 4; 4]; Mo 20833 40 [2; 2; 5]; Mo 4773 4 [1; 3; 5]; Mo 1365 1 [1; 2; 6]; Mo 14553 16 [1; 1; 7]; Mo (-1276797) 4 [5; 6]; Mo (-1359417) 4 [4; 7]; Mo (-1556247) 4 [3; 8]; Mo (-488631) 1 [2; 9]; Mo (-2861859) 4 [1; 10]; Mo 654729075 2 [13]]; [Mo 31 192 [2; 2; 2; 2]; Mo 71 32 [1; 2; 2; 3]; Mo 81 64 [1; 1; 3; 3]; Mo 89 32 [1; 1; 2; 4]; Mo 59 48 [1; 1; 1; 5]; Mo (-15803) 16 [3; 3; 4]; Mo (-25333) 24 [2; 4; 4]; Mo (-8789) 4 [2; 3; 5]; Mo (-64345) 24 [1; 4; 5]; Mo (-100491) 80 [2; 2; 6]; Mo (-11475) 4 [1; 3; 6]; Mo (-401023) 120 [1; 2; 7]; Mo (-35987) 16 [1; 1; 8]; Mo 1852557 4 [6; 6]; Mo 3803061 4 [5; 7]; Mo 4127739 4 [4; 8]; Mo 4784703 4 [3; 9]; Mo 3024021 2 [2; 10]; Mo 2216214 1 [1; 11]]];
  [[Mo 1 48 [1; 1; 1]; Mo (-25) 4 [2; 3]; Mo (-91) 12 [1; 4]; Mo 2145 2 [7]]; [Mo (-7) 16 [1; 1; 2]; Mo 125 4 [3; 3]; Mo 133 2 [2; 4]; Mo 357 4 [1; 5]; Mo (-32175) 2 [8]]; [Mo 25 16 [1; 2; 2]; Mo 31 16 [1; 1; 3]; Mo (-358) 1 [3; 4]; Mo (-1603) 4 [2; 5]; Mo (-2289) 4 [1; 6]; Mo 128700 1 [9]]; [Mo (-21) 16 [2; 2; 2]; Mo (-77) 8 [1; 2; 3]; Mo (-105) 16 [1; 1; 4]; Mo 8785 12 [4; 4]; Mo 6097 4 [3; 5]; Mo 7119 4 [2; 6]; Mo 10549 4 [1; 7]; Mo (-729300) 1 [10]]; [Mo 155 16 [2; 2; 3]; Mo 93 8 [1; 3; 3]; Mo 207 8 [1; 2; 4]; Mo 295 16 [1; 1; 5]; Mo (-9947) 2 [4; 5]; Mo (-5341) 1 [3; 6]; Mo (-25809) 4 [2; 7]; Mo (-39039) 4 [1; 8]; Mo 3281850 1 [11]]; [Mo (-161) 8 [2; 3; 3]; Mo (-357) 16 [2; 2; 4]; Mo (-105) 2 [1; 3; 4]; Mo (-497) 8 [1; 2; 5]; Mo (-721) 16 [1; 1; 6]; Mo 28679 4 [5; 5]; Mo 58961 4 [4; 6]; Mo 32487 2 [3; 7]; Mo 80619 4 [2; 8]; Mo 123123 4 [1; 9]; Mo (-12471030) 1 [12]]; [Mo 197 16 [3; 3; 3]; Mo 163 2 [2; 3; 4]; Mo 415 8 [1; 4; 4]; Mo 767 16 [2; 2; 5]; Mo 885 8 [1; 3; 5]; Mo 1087 8 [1; 2; 6]; Mo 791 8 [1; 1; 7]; Mo (-37429) 1 [5; 6]; Mo (-235865) 6 [4; 7]; Mo (-88557) 2 [3; 8]; Mo (-224301) 4 [2; 9]; Mo (-343343) 4 [1; 10]; Mo 41570100 1 [13]]];
  [[Mo (-309) 80 [1; 2; 2]; Mo (-217) 48 [1; 1; 3]; Mo 1575 2 [3; 4]; Mo 882 1 [2; 5]; Mo 1254 1 [1; 6]; Mo (-546975) 2 [9]]; [Mo 927 80 [2; 2; 2]; Mo 323 4 [1; 2; 3]; Mo 805 16 [1; 1; 4]; Mo (-11025) 2 [4; 4]; Mo (-22995) 2 [3; 5]; Mo (-13464) 1 [2; 6]; Mo (-19305) 1 [1; 7]; Mo 10392525 2 [10]]; [Mo 1 16 [1; 1; 1; 2]; Mo (-15579) 80 [2; 2; 3]; Mo (-3613) 16 [1; 3; 3]; Mo (-5825) 12 [1; 2; 4]; Mo (-15085) 48 [1; 1; 5]; Mo 169785 2 [4; 5]; Mo 182943 2 [3; 6]; Mo 110121 1 [2; 7]; Mo 159159 1 [1; 8]; Mo (-51962625) 1 [11]]; [Mo (-5) 16 [1; 1; 2; 2]; Mo (-5) 12 [1; 1; 1; 3]; Mo 12387 16 [2; 3; 3]; Mo 13313 16 [2; 2; 4]; Mo 46325 24 [1; 3; 4]; Mo 8645 4 [1; 2; 5]; Mo 22981 16 [1; 1; 6]; Mo (-229320) 1 [5; 5]; Mo (-944565) 2 [4; 6]; Mo (-1043625) 2 [3; 7]; Mo (-639639) 1 [2; 8]; Mo (-930930) 1 [1; 9]; Mo 363738375 1 [12]]; [Mo 1 768 [1; 1; 1; 1; 1]; Mo 7 16 [1; 2; 2; 2]; Mo 19 8 [1; 1; 2; 3]; Mo 5 3 [1; 1; 1; 4]; Mo (-6537) 8 [3; 3; 3]; Mo (-42145) 8 [2; 3; 4]; Mo (-52517) 16 [1; 4; 4]; Mo (-2952) 1 [2; 2; 5]; Mo (-54775) 8 [1; 3; 5]; Mo (-62979) 8 [1; 2; 6]; Mo (-21315) 4 [1; 1; 7]; Mo 2007720 1 [5; 6]; Mo 4228281 2 [4; 7]; Mo 4761603 2 [3; 8]; Mo 2954952 1 [2; 9]; Mo 4324320 1 [1; 10]; Mo (-4001122125) 2 [13]]; [Mo (-7) 768 [1; 1; 1; 1; 2]; Mo (-3) 16 [2; 2; 2; 2]; Mo (-15) 4 [1; 2; 2; 3]; Mo (-45) 16 [1; 1; 3; 3]; Mo (-61) 8 [1; 1; 2; 4]; Mo (-245) 48 [1; 1; 1; 5]; Mo 56485 8 [3; 3; 4]; Mo 364193 48 [2; 4; 4]; Mo 31665 2 [2; 3; 5]; Mo 472745 24 [1; 4; 5]; Mo 364707 40 [2; 2; 6]; Mo 84455 4 [1; 3; 6]; Mo 494767 20 [1; 2; 7]; Mo 67837 4 [1; 1; 8]; Mo (-3682224) 1 [6; 6]; Mo (-7522710) 1 [5; 7]; Mo (-16124955) 2 [4; 8]; Mo (-18423405) 2 [3; 9]; Mo (-11537526) 1 [2; 10]; Mo (-16948932) 1 [1; 11]]; [Mo 3 128 [1; 1; 1; 2; 2]; Mo 5 384 [1; 1; 1; 1; 3]; Mo 43 24 [2; 2; 2; 3]; Mo 123 16 [1; 2; 3; 3]; Mo 21 2 [1; 2; 2; 4]; Mo 55 4 [1; 1; 3; 4]; Mo 83 4 [1; 1; 2; 5]; Mo 105 8 [1; 1; 1; 6]; Mo (-143051) 8 [3; 4; 4]; Mo (-149265) 8 [3; 3; 5]; Mo (-160445) 4 [2; 4; 5]; Mo (-415303) 16 [1; 5; 5]; Mo (-344205) 8 [2; 3; 6]; Mo (-320215) 6 [1; 4; 6]; Mo (-505239) 20 [2; 2; 7]; Mo (-349867) 6 [1; 3; 7]; Mo (-277221) 4 [1; 2; 8]; Mo (-766535) 16 [1; 1; 9]; Mo 24034374 1 [6; 7]; Mo 24959970 1 [5; 8]; Mo 54263055 2 [4; 9]; Mo 62687625 2 [3; 10]; Mo 39531492 1 [2; 11]; Mo 58198140 1 [1; 12]]];
  [[Mo 13 48 [1; 1; 2]; Mo (-1725) 56 [3; 3]; Mo (-257) 4 [2; 4]; Mo (-321) 4 [1; 5]; Mo 32175 2 [8]]; [Mo (-87) 40 [1; 2; 2]; Mo (-137) 48 [1; 1; 3]; Mo 1505 2 [3; 4]; Mo 819 1 [2; 5]; Mo 4455 4 [1; 6]; Mo (-546975) 2 [9]]; [Mo 1 64 [1; 1; 1; 1]; Mo 239 80 [2; 2; 2]; Mo 183 8 [1; 2; 3]; Mo 67 4 [1; 1; 4]; Mo (-19785) 8 [4; 4]; Mo (-20391) 4 [3; 5]; Mo (-11541) 2 [2; 6]; Mo (-16599) 2 [1; 7]; Mo 4922775 2 [10]]; [Mo (-7) 48 [1; 1; 1; 2]; Mo (-2599) 80 [2; 2; 3]; Mo (-81) 2 [1; 3; 3]; Mo (-278) 3 [1; 2; 4]; Mo (-427) 6 [1; 1; 5]; Mo 23800 1 [4; 5]; Mo 100635 4 [3; 6]; Mo 117975 4 [2; 7]; Mo 87945 2 [1; 8]; Mo (-31177575) 2 [11]]; [Mo 13 32 [1; 1; 2; 2]; Mo 31 96 [1; 1; 1; 3]; Mo 365 4 [2; 3; 3]; Mo 2071 20 [2; 2; 4]; Mo 6065 24 [1; 3; 4]; Mo 2487 8 [1; 2; 5]; Mo 11683 48 [1; 1; 6]; Mo (-91185) 2 [5; 5]; Mo (-372599) 4 [4; 6]; Mo (-402903) 4 [3; 7]; Mo (-486717) 4 [2; 8]; Mo (-741741) 4 [1; 9]; Mo 155887875 2 [12]]; [Mo (-7) 16 [1; 2; 2; 2]; Mo (-49) 32 [1; 1; 2; 3]; Mo (-21) 32 [1; 1; 1; 4]; Mo (-143) 2 [3; 3; 3]; Mo (-3863) 8 [2; 3; 4]; Mo (-2599) 8 [1; 4; 4]; Mo (-11777) 40 [2; 2; 5]; Mo (-2817) 4 [1; 3; 5]; Mo (-903) 1 [1; 2; 6]; Mo (-11361) 16 [1; 1; 7]; Mo 1206915 4 [5; 6]; Mo 1254579 4 [4; 7]; Mo 1384845 4 [3; 8]; Mo 857571 2 [2; 9]; Mo 2645643 4 [1; 10]; Mo (-654729075) 2 [13]]; [Mo 31 192 [2; 2; 2; 2]; Mo 71 32 [1; 2; 2; 3]; Mo 81 64 [1; 1; 3; 3]; Mo 89 32 [1; 1; 2; 4]; Mo 59 48 [1; 1; 1; 5]; Mo 7907 16 [3; 3; 4]; Mo 13247 24 [2; 4; 4]; Mo 4771 4 [2; 3; 5]; Mo 37505 24 [1; 4; 5]; Mo 60699 80 [2; 2; 6]; Mo 7125 4 [1; 3; 6]; Mo 280847 120 [1; 2; 7]; Mo 29323 16 [1; 1; 8]; Mo (-1754025) 4 [6; 6]; Mo (-3563403) 4 [5; 7]; Mo (-3761289) 4 [4; 8]; Mo (-4229841) 4 [3; 9]; Mo (-1336335) 1 [2; 10]; Mo (-2072070) 1 [1; 11]]]];
 [[[Mo (-29) 20 [1; 2; 2]; Mo (-83) 48 [1; 1; 3]; Mo 525 2 [3; 4]; Mo 1197 4 [2; 5]; Mo 1749 4 [1; 6]; Mo (-182325) 2 [9]]; [Mo (-1) 96 [1; 1; 1; 1]; Mo 87 20 [2; 2; 2]; Mo 61 2 [1; 2; 3]; Mo 931 48 [1; 1; 4]; Mo (-3675) 2 [4; 4]; Mo (-15435) 4 [3; 5]; Mo (-9207) 2 [2; 6]; Mo (-27027) 4 [1; 7]; Mo 3464175 2 [10]]; [Mo 1 6 [1; 1; 1; 2]; Mo (-5871) 80 [2; 2; 3]; Mo (-681) 8 [1; 3; 3]; Mo (-554) 3 [1; 2; 4]; Mo (-1463) 12 [1; 1; 5]; Mo 113505 4 [4; 5]; Mo 123579 4 [3; 6]; Mo 151503 4 [2; 7]; Mo 223509 4 [1; 8]; Mo (-17320875) 1 [11]]; [Mo (-11) 16 [1; 1; 2; 2]; Mo (-9) 16 [1; 1; 1; 3]; Mo 1167 4 [2; 3; 3]; Mo 5043 16 [2; 2; 4]; Mo 5837 8 [1; 3; 4]; Mo 3311 4 [1; 2; 5]; Mo 560 1 [1; 1; 6]; Mo (-306495) 4 [5; 5]; Mo (-633945) 4 [4; 6]; Mo (-177243) 1 [3; 7]; Mo (-884169) 4 [2; 8]; Mo (-1310595) 4 [1; 9]; Mo 121246125 1 [12]]; [Mo 1 1 [1; 2; 2; 2]; Mo 29 8 [1; 1; 2; 3]; Mo 13 8 [1; 1; 1; 4]; Mo (-2463) 8 [3; 3; 3]; Mo (-15919) 8 [2; 3; 4]; Mo (-7435) 6 [1; 4; 4]; Mo (-4497) 4 [2; 2; 5]; Mo (-20799) 8 [1; 3; 5]; Mo (-12131) 4 [1; 2; 6]; Mo (-2086) 1 [1; 1; 7]; Mo 1343835 2 [5; 6]; Mo 712485 1 [4; 7]; Mo 812691 1 [3; 8]; Mo 2050191 2 [2; 9]; Mo 1525095 1 [1; 10]; Mo (-1333707375) 2 [13]]; [Mo (-15) 32 [2; 2; 2; 2]; Mo (-107) 16 [1; 2; 2; 3]; Mo (-127) 32 [1; 1; 3; 3]; Mo (-141) 16 [1; 1; 2; 4]; Mo (-33) 8 [1; 1; 1; 5]; Mo 21311 8 [3; 3; 4]; Mo 68755 24 [2; 4; 4]; Mo 12003 2 [2; 3; 5]; Mo 59591 8 [1; 4; 5]; Mo 17451 5 [2; 2; 6]; Mo 8057 1 [1; 3; 6]; Mo 47887 5 [1; 2; 7]; Mo 13321 2 [1; 1; 8]; Mo (-4927419) 4 [6; 6]; Mo (-10096737) 4 [5; 7]; Mo (-2728605) 1 [4; 8]; Mo (-12631905) 4 [3; 9]; Mo (-16061331) 4 [2; 10]; Mo (-5987553) 1 [1; 11]]];
  [[Mo 1 8 [1; 1; 2]; Mo (-575) 56 [3; 3]; Mo (-22) 1 [2; 4]; Mo (-57) 2 [1; 5]; Mo 10725 2 [8]]; [Mo (-1) 1 [1; 2; 2]; Mo (-5) 4 [1; 1; 3]; Mo 1015 4 [3; 4]; Mo 567 2 [2; 5]; Mo 396 1 [1; 6]; Mo (-182325) 2 [9]]; [Mo 11 8 [2; 2; 2]; Mo 41 4 [1; 2; 3]; Mo 57 8 [1; 1; 4]; Mo (-6665) 8 [4; 4]; Mo (-1736) 1 [3; 5]; Mo (-2013) 1 [2; 6]; Mo (-5907) 2 [1; 7]; Mo 1640925 2 [10]]; [Mo (-59) 4 [2; 2; 3]; Mo (-145) 8 [1; 3; 3]; Mo (-81) 2 [1; 2; 4]; Mo (-119) 4 [1; 1; 5]; Mo 8050 1 [4; 5]; Mo 17277 2 [3; 6]; Mo 20691 2 [2; 7]; Mo 31317 2 [1; 8]; Mo (-10392525) 2 [11]]; [Mo 331 8 [2; 3; 3]; Mo 369 8 [2; 2; 4]; Mo 447 4 [1; 3; 4]; Mo 533 4 [1; 2; 5]; Mo 805 8 [1; 1; 6]; Mo (-30815) 2 [5; 5]; Mo (-63365) 2 [4; 6]; Mo (-34821) 1 [3; 7]; Mo (-85701) 2 [2; 8]; Mo (-66066) 1 [1; 9]; Mo 51962625 2 [12]]; [Mo (-65) 2 [3; 3; 3]; Mo (-867) 4 [2; 3; 4]; Mo (-1149) 8 [1; 4; 4]; Mo (-515) 4 [2; 2; 5]; Mo (-307) 1 [1; 3; 5]; Mo (-763) 2 [1; 2; 6]; Mo (-2331) 8 [1; 1; 7]; Mo 204387 2 [5; 6]; Mo 107292 1 [4; 7]; Mo 120351 1 [3; 8]; Mo 151437 1 [2; 9]; Mo 471471 2 [1; 10]; Mo (-218243025) 2 [13]]];
  [[Mo (-1) 384 [1; 1; 1; 1]; Mo (-979) 280 [2; 2; 2]; Mo (-697) 28 [1; 2; 3]; Mo (-781) 48 [1; 1; 4]; Mo 43925 24 [4; 4]; Mo 15195 4 [3; 5]; Mo 4389 1 [2; 6]; Mo 25597 4 [1; 7]; Mo (-3464175) 2 [10]]; [Mo 1 48 [1; 1; 1; 2]; Mo 1017 8 [2; 2; 3]; Mo 8395 56 [1; 3; 3]; Mo 655 2 [1; 2; 4]; Mo 3537 16 [1; 1; 5]; Mo (-59535) 1 [4; 5]; Mo (-254925) 4 [3; 6]; Mo (-305019) 4 [2; 7]; Mo (-448305) 4 [1; 8]; Mo 72747675 2 [11]]; [Mo 7 960 [1; 1; 2; 2]; Mo 5 24 [1; 1; 1; 3]; Mo (-5673) 7 [2; 3; 3]; Mo (-98801) 112 [2; 2; 4]; Mo (-116159) 56 [1; 3; 4]; Mo (-9499) 4 [1; 2; 5]; Mo (-26235) 16 [1; 1; 6]; Mo 2036895 8 [5; 5]; Mo 1046115 2 [4; 6]; Mo 574398 1 [3; 7]; Mo 2813811 4 [2; 8]; Mo 2082795 2 [1; 9]; Mo (-800224425) 2 [12]]; [Mo (-1) 384 [1; 1; 1; 1; 1]; Mo (-1) 40 [1; 2; 2; 2]; Mo (-57) 32 [1; 1; 2; 3]; Mo (-187) 96 [1; 1; 1; 4]; Mo 8465 7 [3; 3; 3]; Mo 15755 2 [2; 3; 4]; Mo 60245 12 [1; 4; 4]; Mo 72009 16 [2; 2; 5]; Mo 10564 1 [1; 3; 5]; Mo 12444 1 [1; 2; 6]; Mo 139777 16 [1; 1; 7]; Mo (-12500775) 4 [5; 6]; Mo (-13115355) 4 [4; 7]; Mo (-7350915) 2 [3; 8]; Mo (-9148425) 2 [2; 9]; Mo (-13625755) 2 [1; 10]; Mo 6135053925 2 [13]]; [Mo 5 192 [1; 1; 1; 1; 2]; Mo (-27) 640 [2; 2; 2; 2]; Mo 227 80 [1; 2; 2; 3]; Mo 359 96 [1; 1; 3; 3]; Mo 91 8 [1; 1; 2; 4]; Mo 923 96 [1; 1; 1; 5]; Mo (-777927) 56 [3; 3; 4]; Mo (-421595) 28 [2; 4; 4]; Mo (-1773381) 56 [2; 3; 5]; Mo (-160891) 4 [1; 4; 5]; Mo (-298389) 16 [2; 2; 6]; Mo (-174775) 4 [1; 3; 6]; Mo (-52467) 1 [1; 2; 7]; Mo (-596475) 16 [1; 1; 8]; Mo 60187575 8 [6; 6]; Mo 15346530 1 [5; 7]; Mo 65535855 4 [4; 8]; Mo 74673885 4 [3; 9]; Mo 47007675 2 [2; 10]; Mo 70340985 2 [1; 11]]; [Mo (-17) 192 [1; 1; 1; 2; 2]; Mo (-5) 96 [1; 1; 1; 1; 3]; Mo (-129) 160 [2; 2; 2; 3]; Mo (-153) 16 [1; 2; 3; 3]; Mo (-8107) 480 [1; 2; 2; 4]; Mo (-911) 32 [1; 1; 3; 4]; Mo (-755) 16 [1; 1; 2; 5]; Mo (-847) 24 [1; 1; 1; 6]; Mo 89195 2 [3; 4; 4]; Mo 2623917 56 [3; 3; 5]; Mo 101467 1 [2; 4; 5]; Mo 67454 1 [1; 5; 5]; Mo 881739 8 [2; 3; 6]; Mo 1115665 8 [1; 4; 6]; Mo 5299707 80 [2; 2; 7]; Mo 1238379 8 [1; 3; 7]; Mo 188496 1 [1; 2; 8]; Mo 2160873 16 [1; 1; 9]; Mo (-123390729) 2 [6; 7]; Mo (-127834905) 2 [5; 8]; Mo (-69236310) 1 [4; 9]; Mo (-319671495) 4 [3; 10]; Mo (-202986069) 2 [2; 11]; Mo (-304708833) 2 [1; 12]]];
  [[Mo 11 20 [1; 2; 2]; Mo 37 48 [1; 1; 3]; Mo (-245) 1 [3; 4]; Mo (-1071) 4 [2; 5]; Mo (-1419) 4 [1; 6]; Mo 182325 2 [9]]; [Mo (-1) 96 [1; 1; 1; 1]; Mo (-33) 20 [2; 2; 2]; Mo (-53) 4 [1; 2; 3]; Mo (-497) 48 [1; 1; 4]; Mo 1715 1 [4; 4]; Mo 14175 4 [3; 5]; Mo 8019 2 [2; 6]; Mo 22737 4 [1; 7]; Mo (-3464175) 2 [10]]; [Mo 1 6 [1; 1; 1; 2]; Mo 2389 80 [2; 2; 3]; Mo 309 8 [1; 3; 3]; Mo 1087 12 [1; 2; 4]; Mo 889 12 [1; 1; 5]; Mo (-105245) 4 [4; 5]; Mo (-111519) 4 [3; 6]; Mo (-130317) 4 [2; 7]; Mo (-193479) 4 [1; 8]; Mo 17320875 1 [11]]; [Mo (-11) 16 [1; 1; 2; 2]; Mo (-9) 16 [1; 1; 1; 3]; Mo (-483) 4 [2; 3; 3]; Mo (-2245) 16 [2; 2; 4]; Mo (-2829) 8 [1; 3; 4]; Mo (-1799) 4 [1; 2; 5]; Mo (-749) 2 [1; 1; 6]; Mo 284445 4 [5; 5]; Mo 581925 4 [4; 6]; Mo 315051 2 [3; 7]; Mo 758043 4 [2; 8]; Mo 1160445 4 [1; 9]; Mo (-121246125) 1 [12]]; [Mo 1 1 [1; 2; 2; 2]; Mo 29 8 [1; 1; 2; 3]; Mo 13 8 [1; 1; 1; 4]; Mo 1007 8 [3; 3; 3]; Mo 6943 8 [2; 3; 4]; Mo 1843 3 [1; 4; 4]; Mo 2189 4 [2; 2; 5]; Mo 10797 8 [1; 3; 5]; Mo 7175 4 [1; 2; 6]; Mo 5999 4 [1; 1; 7]; Mo (-1242135) 2 [5; 6]; Mo (-1293375) 2 [4; 7]; Mo (-1427877) 2 [3; 8]; Mo (-1761903) 2 [2; 9]; Mo (-1374945) 1 [1; 10]; Mo 1333707375 2 [13]]; [Mo (-15) 32 [2; 2; 2; 2]; Mo (-107) 16 [1; 2; 2; 3]; Mo (-127) 32 [1; 1; 3; 3]; Mo (-141) 16 [1; 1; 2; 4]; Mo (-33) 8 [1; 1; 1; 5]; Mo (-8967) 8 [3; 3; 4]; Mo (-30587) 24 [2; 4; 4]; Mo (-11169) 4 [2; 3; 5]; Mo (-30681) 8 [1; 4; 5]; Mo (-9219) 5 [2; 2; 6]; Mo (-17843) 4 [1; 3; 6]; Mo (-60781) 10 [1; 2; 7]; Mo (-20251) 4 [1; 1; 8]; Mo 4558869 4 [6; 6]; Mo 9269751 4 [5; 7]; Mo 4899345 2 [4; 8]; Mo 11010285 4 [3; 9]; Mo 13881153 4 [2; 10]; Mo 5477043 1 [1; 11]]]];
 [[[Mo 1 384 [1; 1; 1; 1]; Mo (-23) 20 [2; 2; 2]; Mo (-33) 4 [1; 2; 3]; Mo (-259) 48 [1; 1; 4]; Mo 12299 24 [4; 4]; Mo 4305 4 [3; 5]; Mo 2541 2 [2; 6]; Mo 7579 4 [1; 7]; Mo (-969969) 2 [10]]; [Mo (-3) 32 [1; 1; 1; 2]; Mo 42 1 [2; 2; 3]; Mo 5545 112 [1; 3; 3]; Mo 865 8 [1; 2; 4]; Mo 1173 16 [1; 1; 5]; Mo (-16758) 1 [4; 5]; Mo (-72765) 4 [3; 6]; Mo (-88803) 4 [2; 7]; Mo (-66495) 2 [1; 8]; Mo 20369349 2 [11]]; [Mo 41 64 [1; 1; 2; 2]; Mo 17 32 [1; 1; 1; 3]; Mo (-29989) 112 [2; 3; 3]; Mo (-4665) 16 [2; 2; 4]; Mo (-5463) 8 [1; 3; 4]; Mo (-6267) 8 [1; 2; 5]; Mo (-8703) 16 [1; 1; 6]; Mo 573153 8 [5; 5]; Mo 148050 1 [4; 6]; Mo 329967 2 [3; 7]; Mo 411411 2 [2; 8]; Mo 1237665 4 [1; 9]; Mo (-224062839) 2 [12]]; [Mo (-43) 32 [1; 2; 2; 2]; Mo (-159) 32 [1; 1; 2; 3]; Mo (-73) 32 [1; 1; 1; 4]; Mo 44745 112 [3; 3; 3]; Mo 20815 8 [2; 3; 4]; Mo 79145 48 [1; 4; 4]; Mo 23793 16 [2; 2; 5]; Mo 13889 4 [1; 3; 5]; Mo 32853 8 [1; 2; 6]; Mo 46387 16 [1; 1; 7]; Mo (-3525795) 4 [5; 6]; Mo (-3732135) 4 [4; 7]; Mo (-4244955) 4 [3; 8]; Mo (-5368935) 4 [2; 9]; Mo (-8107385) 4 [1; 10]; Mo 1717815099 2 [13]]; [Mo 107 128 [2; 2; 2; 2]; Mo 391 32 [1; 2; 2; 3]; Mo 119 16 [1; 1; 3; 3]; Mo 531 32 [1; 1; 2; 4]; Mo 257 32 [1; 1; 1; 5]; Mo (-514011) 112 [3; 3; 4]; Mo (-79503) 16 [2; 4; 4]; Mo (-10454) 1 [2; 3; 5]; Mo (-105513) 8 [1; 4; 5]; Mo (-98583) 16 [2; 2; 6]; Mo (-57429) 4 [1; 3; 6]; Mo (-138633) 8 [1; 2; 7]; Mo (-198033) 16 [1; 1; 8]; Mo 16968945 8 [6; 6]; Mo 8686845 2 [5; 7]; Mo 9370515 2 [4; 8]; Mo 5413980 1 [3; 9]; Mo 27664065 4 [2; 10]; Mo 41898285 4 [1; 11]]];
  [[Mo 1 4 [1; 2; 2]; Mo 5 16 [1; 1; 3]; Mo (-70) 1 [3; 4]; Mo (-315) 4 [2; 5]; Mo (-429) 4 [1; 6]; Mo 51051 2 [9]]; [Mo (-3) 4 [2; 2; 2]; Mo (-45) 8 [1; 2; 3]; Mo (-63) 16 [1; 1; 4]; Mo 490 1 [4; 4]; Mo 4095 4 [3; 5]; Mo 1188 1 [2; 6]; Mo 1716 1 [1; 7]; Mo (-969969) 2 [10]]; [Mo 209 16 [2; 2; 3]; Mo 65 4 [1; 3; 3]; Mo 291 8 [1; 2; 4]; Mo 217 8 [1; 1; 5]; Mo (-30205) 4 [4; 5]; Mo (-32499) 4 [3; 6]; Mo (-9702) 1 [2; 7]; Mo (-14586) 1 [1; 8]; Mo 4849845 1 [11]]; [Mo (-105) 2 [2; 3; 3]; Mo (-939) 16 [2; 2; 4]; Mo (-579) 4 [1; 3; 4]; Mo (-693) 4 [1; 2; 5]; Mo (-1071) 8 [1; 1; 6]; Mo 81585 4 [5; 5]; Mo 167985 4 [4; 6]; Mo 184899 4 [3; 7]; Mo 56628 1 [2; 8]; Mo 349635 4 [1; 9]; Mo (-33948915) 1 [12]]; [Mo 55 1 [3; 3; 3]; Mo 1473 4 [2; 3; 4]; Mo 501 2 [1; 4; 4]; Mo 1759 8 [2; 2; 5]; Mo 4289 8 [1; 3; 5]; Mo 2681 4 [1; 2; 6]; Mo 4221 8 [1; 1; 7]; Mo (-178560) 1 [5; 6]; Mo (-751107) 4 [4; 7]; Mo (-842589) 4 [3; 8]; Mo (-263835) 1 [2; 9]; Mo (-413985) 1 [1; 10]; Mo 373438065 2 [13]]];
  [[Mo (-1) 48 [1; 1; 1; 2]; Mo (-525) 16 [2; 2; 3]; Mo (-275) 7 [1; 3; 3]; Mo (-695) 8 [1; 2; 4]; Mo (-975) 16 [1; 1; 5]; Mo 33075 2 [4; 5]; Mo 35343 2 [3; 6]; Mo 209781 10 [2; 7]; Mo 31317 1 [1; 8]; Mo (-20369349) 2 [11]]; [Mo 13 80 [1; 1; 2; 2]; Mo 1 32 [1; 1; 1; 3]; Mo 24975 56 [2; 3; 3]; Mo 7845 16 [2; 2; 4]; Mo 9345 8 [1; 3; 4]; Mo 10881 8 [1; 2; 5]; Mo 15543 16 [1; 1; 6]; Mo (-297675) 2 [5; 5]; Mo (-305613) 1 [4; 6]; Mo (-334620) 1 [3; 7]; Mo (-817245) 2 [2; 8]; Mo (-2457741) 4 [1; 9]; Mo 468495027 2 [12]]; [Mo 1 384 [1; 1; 1; 1; 1]; Mo (-37) 80 [1; 2; 2; 2]; Mo (-1) 12 [1; 1; 2; 3]; Mo 1 1 [1; 1; 1; 4]; Mo (-118275) 112 [3; 3; 3]; Mo (-55515) 8 [2; 3; 4]; Mo (-36115) 8 [1; 4; 4]; Mo (-64407) 16 [2; 2; 5]; Mo (-19115) 2 [1; 3; 5]; Mo (-91797) 8 [1; 2; 6]; Mo (-66495) 8 [1; 1; 7]; Mo 2876202 1 [5; 6]; Mo 3014253 1 [4; 7]; Mo 3369366 1 [3; 8]; Mo 16786341 4 [2; 9]; Mo 25401519 4 [1; 10]; Mo (-2810970162) 1 [13]]; [Mo (-5) 128 [1; 1; 1; 1; 2]; Mo 39 80 [2; 2; 2; 2]; Mo 297 160 [1; 2; 2; 3]; Mo (-49) 24 [1; 1; 3; 3]; Mo (-785) 96 [1; 1; 2; 4]; Mo (-315) 32 [1; 1; 1; 5]; Mo 1920455 112 [3; 3; 4]; Mo 18730 1 [2; 4; 4]; Mo 39627 1 [2; 3; 5]; Mo 410385 8 [1; 4; 5]; Mo 380151 16 [2; 2; 6]; Mo 450093 8 [1; 3; 6]; Mo 551265 8 [1; 2; 7]; Mo 403689 8 [1; 1; 8]; Mo (-19340937) 2 [6; 6]; Mo (-19718622) 1 [5; 7]; Mo (-21019713) 1 [4; 8]; Mo (-95615091) 4 [3; 9]; Mo (-120793959) 4 [2; 10]; Mo (-91869921) 2 [1; 11]]; [Mo 35 192 [1; 1; 1; 2; 2]; Mo 85 768 [1; 1; 1; 1; 3]; Mo (-327) 80 [2; 2; 2; 3]; Mo 5 16 [1; 2; 3; 3]; Mo 2621 240 [1; 2; 2; 4]; Mo 1585 48 [1; 1; 3; 4]; Mo 5923 96 [1; 1; 2; 5]; Mo 5299 96 [1; 1; 1; 6]; Mo (-1160295) 16 [3; 4; 4]; Mo (-536265) 7 [3; 3; 5]; Mo (-668193) 4 [2; 4; 5]; Mo (-909925) 8 [1; 5; 5]; Mo (-366393) 2 [2; 3; 6]; Mo (-1888319) 8 [1; 4; 6]; Mo (-897945) 8 [2; 2; 7]; Mo (-530145) 2 [1; 3; 7]; Mo (-2634027) 8 [1; 2; 8]; Mo (-3888885) 16 [1; 1; 9]; Mo 207217395 2 [6; 7]; Mo 107263827 1 [5; 8]; Mo 464017125 4 [4; 9]; Mo 535182219 4 [3; 10]; Mo 341640585 2 [2; 11]; Mo 521704755 2 [1; 12]]];
  [[Mo 1 384 [1; 1; 1; 1]; Mo 7 20 [2; 2; 2]; Mo 3 1 [1; 2; 3]; Mo 119 48 [1; 1; 4]; Mo (-11221) 24 [4; 4]; Mo (-3885) 4 [3; 5]; Mo (-2211) 2 [2; 6]; Mo (-6149) 4 [1; 7]; Mo 969969 2 [10]]; [Mo (-3) 32 [1; 1; 1; 2]; Mo (-57) 4 [2; 2; 3]; Mo (-2155) 112 [1; 3; 3]; Mo (-367) 8 [1; 2; 4]; Mo (-633) 16 [1; 1; 5]; Mo 30429 2 [4; 5]; Mo 64845 4 [3; 6]; Mo 75933 4 [2; 7]; Mo 27885 1 [1; 8]; Mo (-20369349) 2 [11]]; [Mo 41 64 [1; 1; 2; 2]; Mo 17 32 [1; 1; 1; 3]; Mo 10471 112 [2; 3; 3]; Mo 1777 16 [2; 2; 4]; Mo 2313 8 [1; 3; 4]; Mo 3015 8 [1; 2; 5]; Mo 5283 16 [1; 1; 6]; Mo (-520527) 8 [5; 5]; Mo (-266895) 2 [4; 6]; Mo (-290367) 2 [3; 7]; Mo (-174603) 1 [2; 8]; Mo (-1066065) 4 [1; 9]; Mo 224062839 2 [12]]; [Mo (-43) 32 [1; 2; 2; 2]; Mo (-159) 32 [1; 1; 2; 3]; Mo (-73) 32 [1; 1; 1; 4]; Mo (-15455) 112 [3; 3; 3]; Mo (-7777) 8 [2; 3; 4]; Mo (-34675) 48 [1; 4; 4]; Mo (-10101) 16 [2; 2; 5]; Mo (-1601) 1 [1; 3; 5]; Mo (-17505) 8 [1; 2; 6]; Mo (-30767) 16 [1; 1; 7]; Mo 3192525 4 [5; 6]; Mo 3335805 4 [4; 7]; Mo 3695835 4 [3; 8]; Mo 4553835 4 [2; 9]; Mo 7134985 4 [1; 10]; Mo (-1717815099) 2 [13]]; [Mo 107 128 [2; 2; 2; 2]; Mo 391 32 [1; 2; 2; 3]; Mo 119 16 [1; 1; 3; 3]; Mo 531 32 [1; 1; 2; 4]; Mo 257 32 [1; 1; 1; 5]; Mo 184421 112 [3; 3; 4]; Mo 30525 16 [2; 4; 4]; Mo 8455 2 [2; 3; 5]; Mo 48543 8 [1; 4; 5]; Mo 46107 16 [2; 2; 6]; Mo 28629 4 [1; 3; 6]; Mo 80313 8 [1; 2; 7]; Mo 140613 16 [1; 1; 8]; Mo (-15372735) 8 [6; 6]; Mo (-7826985) 2 [5; 7]; Mo (-4151730) 1 [4; 8]; Mo (-4676100) 1 [3; 9]; Mo (-23545665) 4 [2; 10]; Mo (-37522485) 4 [1; 11]]]];
 [[[Mo 1 48 [1; 1; 1; 2]; Mo (-39) 4 [2; 2; 3]; Mo (-655) 56 [1; 3; 3]; Mo (-307) 12 [1; 2; 4]; Mo (-71) 4 [1; 1; 5]; Mo 8085 2 [4; 5]; Mo 4389 1 [3; 6]; Mo 26598 5 [2; 7]; Mo 16159 2 [1; 8]; Mo (-2469012) 1 [11]]; [Mo (-5) 16 [1; 1; 2; 2]; Mo (-25) 96 [1; 1; 1; 3]; Mo 7425 56 [2; 3; 3]; Mo 145 1 [2; 2; 4]; Mo 2065 6 [1; 3; 4]; Mo 3177 8 [1; 2; 5]; Mo 2255 8 [1; 1; 6]; Mo (-72765) 2 [5; 5]; Mo (-150381) 2 [4; 6]; Mo (-83655) 1 [3; 7]; Mo (-208065) 2 [2; 8]; Mo (-634491) 4 [1; 9]; Mo 56787276 1 [12]]; [Mo 17 16 [1; 2; 2; 2]; Mo 127 32 [1; 1; 2; 3]; Mo 59 32 [1; 1; 1; 4]; Mo (-4395) 14 [3; 3; 3]; Mo (-2056) 1 [2; 3; 4]; Mo (-10595) 8 [1; 4; 4]; Mo (-9471) 8 [2; 2; 5]; Mo (-22349) 8 [1; 3; 5]; Mo (-26667) 8 [1; 2; 6]; Mo (-19239) 8 [1; 1; 7]; Mo 705012 1 [5; 6]; Mo 745998 1 [4; 7]; Mo 846846 1 [3; 8]; Mo 4286711 4 [2; 9]; Mo 6561269 4 [1; 10]; Mo (-681447312) 1 [13]]; [Mo (-15) 16 [2; 2; 2; 2]; Mo (-445) 32 [1; 2; 2; 3]; Mo (-275) 32 [1; 1; 3; 3]; Mo (-615) 32 [1; 1; 2; 4]; Mo (-455) 48 [1; 1; 1; 5]; Mo 71235 14 [3; 3; 4]; Mo 132995 24 [2; 4; 4]; Mo 23373 2 [2; 3; 5]; Mo 359335 24 [1; 4; 5]; Mo 6954 1 [2; 2; 6]; Mo 65415 4 [1; 3; 6]; Mo 19954 1 [1; 2; 7]; Mo 116545 8 [1; 1; 8]; Mo (-4739427) 2 [6; 6]; Mo (-9704079) 2 [5; 7]; Mo (-5229653) 1 [4; 8]; Mo (-24136541) 4 [3; 9]; Mo (-30919889) 4 [2; 10]; Mo (-11870573) 1 [1; 11]]];
  [[Mo 1 6 [2; 2; 2]; Mo 5 4 [1; 2; 3]; Mo 7 8 [1; 1; 4]; Mo (-2107) 18 [4; 4]; Mo (-245) 1 [3; 5]; Mo (-286) 1 [2; 6]; Mo (-2431) 6 [1; 7]; Mo 117572 1 [10]]; [Mo (-25) 4 [2; 2; 3]; Mo (-125) 16 [1; 3; 3]; Mo (-35) 2 [1; 2; 4]; Mo (-105) 8 [1; 1; 5]; Mo 3822 1 [4; 5]; Mo 4125 1 [3; 6]; Mo 9867 2 [2; 7]; Mo 29315 4 [1; 8]; Mo (-2469012) 1 [11]]; [Mo 645 16 [2; 3; 3]; Mo 361 8 [2; 2; 4]; Mo 899 8 [1; 3; 4]; Mo 539 4 [1; 2; 5]; Mo 843 8 [1; 1; 6]; Mo (-32683) 2 [5; 5]; Mo (-33690) 1 [4; 6]; Mo (-37191) 1 [3; 7]; Mo (-182039) 4 [2; 8]; Mo (-279565) 4 [1; 9]; Mo 27159132 1 [12]]; [Mo (-2875) 48 [3; 3; 3]; Mo (-3215) 8 [2; 3; 4]; Mo (-4445) 16 [1; 4; 4]; Mo (-1925) 8 [2; 2; 5]; Mo (-595) 1 [1; 3; 5]; Mo (-2985) 4 [1; 2; 6]; Mo (-4785) 8 [1; 1; 7]; Mo 200865 1 [5; 6]; Mo 211640 1 [4; 7]; Mo 951665 4 [3; 8]; Mo 1189045 4 [2; 9]; Mo 5603455 12 [1; 10]; Mo (-208220012) 1 [13]]];
  [[Mo (-17) 240 [1; 1; 2; 2]; Mo (-1) 24 [1; 1; 1; 3]; Mo (-2825) 28 [2; 3; 3]; Mo (-4471) 40 [2; 2; 4]; Mo (-539) 2 [1; 3; 4]; Mo (-1269) 4 [1; 2; 5]; Mo (-935) 4 [1; 1; 6]; Mo 393372 11 [5; 5]; Mo 146951 2 [4; 6]; Mo 80405 1 [3; 7]; Mo 97695 1 [2; 8]; Mo 148954 1 [1; 9]; Mo (-56787276) 1 [12]]; [Mo (-1) 768 [1; 1; 1; 1; 1]; Mo 5 12 [1; 2; 2; 2]; Mo 5 6 [1; 1; 2; 3]; Mo (-7) 96 [1; 1; 1; 4]; Mo 14125 28 [3; 3; 3]; Mo 13355 4 [2; 3; 4]; Mo 318451 144 [1; 4; 4]; Mo 78309 40 [2; 2; 5]; Mo 37589 8 [1; 3; 5]; Mo 5720 1 [1; 2; 6]; Mo 102245 24 [1; 1; 7]; Mo (-2896047) 2 [5; 6]; Mo (-3036033) 2 [4; 7]; Mo (-1694550) 1 [3; 8]; Mo (-2107677) 1 [2; 9]; Mo (-12937119) 4 [1; 10]; Mo 1419681900 1 [13]]; [Mo 25 768 [1; 1; 1; 1; 2]; Mo (-151) 240 [2; 2; 2; 2]; Mo (-51) 10 [1; 2; 2; 3]; Mo (-101) 168 [1; 1; 3; 3]; Mo 113 96 [1; 1; 2; 4]; Mo 491 96 [1; 1; 1; 5]; Mo (-727287) 56 [3; 3; 4]; Mo (-2056531) 144 [2; 4; 4]; Mo (-242683) 8 [2; 3; 5]; Mo (-159763) 4 [1; 4; 5]; Mo (-147445) 8 [2; 2; 6]; Mo (-352605) 8 [1; 3; 6]; Mo (-657811) 12 [1; 2; 7]; Mo (-329615) 8 [1; 1; 8]; Mo 15266979 2 [6; 6]; Mo 31136875 2 [5; 7]; Mo 33188441 2 [4; 8]; Mo 18846399 1 [3; 9]; Mo 95367467 4 [2; 10]; Mo 147153955 4 [1; 11]]; [Mo (-85) 384 [1; 1; 1; 2; 2]; Mo (-35) 256 [1; 1; 1; 1; 3]; Mo 55 6 [2; 2; 2; 3]; Mo 835 56 [1; 2; 3; 3]; Mo 571 96 [1; 2; 2; 4]; Mo (-1691) 96 [1; 1; 3; 4]; Mo (-4237) 96 [1; 1; 2; 5]; Mo (-1623) 32 [1; 1; 1; 6]; Mo 11089651 144 [3; 4; 4]; Mo 81688 1 [3; 3; 5]; Mo 716933 4 [2; 4; 5]; Mo 1993159 16 [1; 5; 5]; Mo 1582825 8 [2; 3; 6]; Mo 1036417 4 [1; 4; 6]; Mo 492129 4 [2; 2; 7]; Mo 7039505 24 [1; 3; 7]; Mo 1480765 4 [1; 2; 8]; Mo 280280 1 [1; 1; 9]; Mo (-113785749) 1 [6; 7]; Mo (-235642407) 2 [5; 8]; Mo (-254746635) 2 [4; 9]; Mo (-587187939) 4 [3; 10]; Mo (-752229855) 4 [2; 11]; Mo (-1165873345) 4 [1; 12]]];
  [[Mo 1 48 [1; 1; 1; 2]; Mo 11 4 [2; 2; 3]; Mo 55 14 [1; 3; 3]; Mo 113 12 [1; 2; 4]; Mo 17 2 [1; 1; 5]; Mo (-7203) 2 [4; 5]; Mo (-3861) 1 [3; 6]; Mo (-22737) 5 [2; 7]; Mo (-6578) 1 [1; 8]; Mo 2469012 1 [11]]; [Mo (-5) 16 [1; 1; 2; 2]; Mo (-25) 96 [1; 1; 1; 3]; Mo (-275) 7 [2; 3; 3]; Mo (-95) 2 [2; 2; 4]; Mo (-385) 3 [1; 3; 4]; Mo (-1359) 8 [1; 2; 5]; Mo (-1243) 8 [1; 1; 6]; Mo 64827 2 [5; 5]; Mo 133287 2 [4; 6]; Mo 72930 1 [3; 7]; Mo 87945 1 [2; 8]; Mo 532389 4 [1; 9]; Mo (-56787276) 1 [12]]; [Mo 17 16 [1; 2; 2; 2]; Mo 127 32 [1; 1; 2; 3]; Mo 59 32 [1; 1; 1; 4]; Mo 2585 28 [3; 3; 3]; Mo 664 1 [2; 3; 4]; Mo 1035 2 [1; 4; 4]; Mo 3535 8 [2; 2; 5]; Mo 9221 8 [1; 3; 5]; Mo 12861 8 [1; 2; 6]; Mo 11781 8 [1; 1; 7]; Mo (-626724) 1 [5; 6]; Mo (-657261) 1 [4; 7]; Mo (-731874) 1 [3; 8]; Mo (-3609749) 4 [2; 9]; Mo (-5642351) 4 [1; 10]; Mo 681447312 1 [13]]; [Mo (-15) 16 [2; 2; 2; 2]; Mo (-445) 32 [1; 2; 2; 3]; Mo (-275) 32 [1; 1; 3; 3]; Mo (-615) 32 [1; 1; 2; 4]; Mo (-455) 48 [1; 1; 1; 5]; Mo (-22005) 14 [3; 3; 4]; Mo (-5570) 3 [2; 4; 4]; Mo (-16597) 4 [2; 3; 5]; Mo (-149075) 24 [1; 4; 5]; Mo (-11619) 4 [2; 2; 6]; Mo (-7392) 1 [1; 3; 6]; Mo (-10604) 1 [1; 2; 7]; Mo (-77363) 8 [1; 1; 8]; Mo 4214133 2 [6; 6]; Mo 8596203 2 [5; 7]; Mo 4578431 1 [4; 8]; Mo 20709689 4 [3; 9]; Mo 26062751 4 [2; 10]; Mo 20831239 2 [1; 11]]]];
 [[[Mo 1 16 [1; 1; 2; 2]; Mo 5 96 [1; 1; 1; 3]; Mo (-3075) 112 [2; 3; 3]; Mo (-601) 20 [2; 2; 4]; Mo (-217) 3 [1; 3; 4]; Mo (-669) 8 [1; 2; 5]; Mo (-121) 2 [1; 1; 6]; Mo 170667 22 [5; 5]; Mo 32067 2 [4; 6]; Mo 35685 2 [3; 7]; Mo 88335 4 [2; 8]; Mo 136357 4 [1; 9]; Mo (-12168702) 1 [12]]; [Mo (-11) 24 [1; 2; 2; 2]; Mo (-55) 32 [1; 1; 2; 3]; Mo (-77) 96 [1; 1; 1; 4]; Mo 15375 112 [3; 3; 3]; Mo 7215 8 [2; 3; 4]; Mo 21217 36 [1; 4; 4]; Mo 20853 40 [2; 2; 5]; Mo 9953 8 [1; 3; 5]; Mo 11935 8 [1; 2; 6]; Mo 3289 3 [1; 1; 7]; Mo (-629937) 2 [5; 6]; Mo (-333333) 1 [4; 7]; Mo (-1512225) 4 [3; 8]; Mo (-955383) 2 [2; 9]; Mo (-2960295) 4 [1; 10]; Mo 304217550 1 [13]]; [Mo 31 48 [2; 2; 2; 2]; Mo 309 32 [1; 2; 2; 3]; Mo 385 64 [1; 1; 3; 3]; Mo 431 32 [1; 1; 2; 4]; Mo 161 24 [1; 1; 1; 5]; Mo (-394123) 112 [3; 3; 4]; Mo (-554233) 144 [2; 4; 4]; Mo (-65009) 8 [2; 3; 5]; Mo (-253349) 24 [1; 4; 5]; Mo (-38923) 8 [2; 2; 6]; Mo (-92403) 8 [1; 3; 6]; Mo (-170335) 12 [1; 2; 7]; Mo (-168883) 16 [1; 1; 8]; Mo 1660176 1 [6; 6]; Mo 6799023 2 [5; 7]; Mo 14655069 4 [4; 8]; Mo 16891017 4 [3; 9]; Mo 5414279 1 [2; 10]; Mo 16833791 2 [1; 11]]];
  [[Mo 5 4 [2; 2; 3]; Mo 25 16 [1; 3; 3]; Mo 7 2 [1; 2; 4]; Mo 21 8 [1; 1; 5]; Mo (-1617) 2 [4; 5]; Mo (-1749) 2 [3; 6]; Mo (-21021) 20 [2; 7]; Mo (-6149) 4 [1; 8]; Mo 529074 1 [11]]; [Mo (-275) 16 [2; 3; 3]; Mo (-77) 4 [2; 2; 4]; Mo (-385) 8 [1; 3; 4]; Mo (-231) 4 [1; 2; 5]; Mo (-363) 8 [1; 1; 6]; Mo 14553 2 [5; 5]; Mo 15015 1 [4; 6]; Mo 66495 4 [3; 7]; Mo 40755 2 [2; 8]; Mo 123981 4 [1; 9]; Mo (-12168702) 1 [12]]; [Mo 325 8 [3; 3; 3]; Mo 2183 8 [2; 3; 4]; Mo 3045 16 [1; 4; 4]; Mo 1309 8 [2; 2; 5]; Mo 1631 4 [1; 3; 5]; Mo 2049 4 [1; 2; 6]; Mo 6633 16 [1; 1; 7]; Mo (-140910) 1 [5; 6]; Mo (-594825) 4 [4; 7]; Mo (-670527) 4 [3; 8]; Mo (-837551) 4 [2; 9]; Mo (-1310309) 4 [1; 10]; Mo 146024424 1 [13]]];
  [[Mo 1 3840 [1; 1; 1; 1; 1]; Mo (-7) 60 [1; 2; 2; 2]; Mo (-31) 96 [1; 1; 2; 3]; Mo (-7) 96 [1; 1; 1; 4]; Mo (-1425) 14 [3; 3; 3]; Mo (-1355) 2 [2; 3; 4]; Mo (-65611) 144 [1; 4; 4]; Mo (-8001) 20 [2; 2; 5]; Mo (-7757) 8 [1; 3; 5]; Mo (-47663) 40 [1; 2; 6]; Mo (-27313) 30 [1; 1; 7]; Mo 307692 1 [5; 6]; Mo 645645 2 [4; 7]; Mo 360360 1 [3; 8]; Mo 1786785 4 [2; 9]; Mo 2775539 4 [1; 10]; Mo (-304217550) 1 [13]]; [Mo (-11) 768 [1; 1; 1; 1; 2]; Mo 7 20 [2; 2; 2; 2]; Mo 57 16 [1; 2; 2; 3]; Mo 815 672 [1; 1; 3; 3]; Mo 41 24 [1; 1; 2; 4]; Mo (-31) 32 [1; 1; 1; 5]; Mo 5525 1 [3; 3; 4]; Mo 293251 48 [2; 4; 4]; Mo 104055 8 [2; 3; 5]; Mo 34755 2 [1; 4; 5]; Mo 319011 40 [2; 2; 6]; Mo 76989 4 [1; 3; 6]; Mo 968539 40 [1; 2; 7]; Mo 74503 4 [1; 1; 8]; Mo (-3384612) 1 [6; 6]; Mo (-13810797) 2 [5; 7]; Mo (-14729715) 2 [4; 8]; Mo (-33438405) 4 [3; 9]; Mo (-10568883) 1 [2; 10]; Mo (-66046071) 4 [1; 11]]; [Mo 61 384 [1; 1; 1; 2; 2]; Mo 19 192 [1; 1; 1; 1; 3]; Mo (-1397) 160 [2; 2; 2; 3]; Mo (-2179) 112 [1; 2; 3; 3]; Mo (-1447) 96 [1; 2; 2; 4]; Mo (-17) 12 [1; 1; 3; 4]; Mo 317 24 [1; 1; 2; 5]; Mo 415 16 [1; 1; 1; 6]; Mo (-1237711) 24 [3; 4; 4]; Mo (-109713) 2 [3; 3; 5]; Mo (-121009) 1 [2; 4; 5]; Mo (-1368871) 16 [1; 5; 5]; Mo (-670686) 5 [2; 3; 6]; Mo (-1425459) 8 [1; 4; 6]; Mo (-3373161) 40 [2; 2; 7]; Mo (-8111213) 40 [1; 3; 7]; Mo (-10366213) 40 [1; 2; 8]; Mo (-3209063) 16 [1; 1; 9]; Mo 157669281 2 [6; 7]; Mo 163342179 2 [5; 8]; Mo 353287935 4 [4; 9]; Mo 406938129 4 [3; 10]; Mo 522107859 4 [2; 11]; Mo 819623805 4 [1; 12]]];
  [[Mo 1 16 [1; 1; 2; 2]; Mo 5 96 [1; 1; 1; 3]; Mo 775 112 [2; 3; 3]; Mo 169 20 [2; 2; 4]; Mo 287 12 [1; 3; 4]; Mo 255 8 [1; 2; 5]; Mo 121 4 [1; 1; 6]; Mo (-149499) 22 [5; 5]; Mo (-27993) 2 [4; 6]; Mo (-15405) 1 [3; 7]; Mo (-74685) 4 [2; 8]; Mo (-111605) 4 [1; 9]; Mo 12168702 1 [12]]; [Mo (-11) 24 [1; 2; 2; 2]; Mo (-55) 32 [1; 1; 2; 3]; Mo (-77) 96 [1; 1; 1; 4]; Mo (-3875) 112 [3; 3; 3]; Mo (-2025) 8 [2; 3; 4]; Mo (-1862) 9 [1; 4; 4]; Mo (-6867) 40 [2; 2; 5]; Mo (-3697) 8 [1; 3; 5]; Mo (-5225) 8 [1; 2; 6]; Mo (-1859) 3 [1; 1; 7]; Mo 550935 2 [5; 6]; Mo 579579 2 [4; 7]; Mo 1297725 4 [3; 8]; Mo 401115 1 [2; 9]; Mo 2490007 4 [1; 10]; Mo (-304217550) 1 [13]]; [Mo 31 48 [2; 2; 2; 2]; Mo 309 32 [1; 2; 2; 3]; Mo 385 64 [1; 1; 3; 3]; Mo 431 32 [1; 1; 2; 4]; Mo 161 24 [1; 1; 1; 5]; Mo 105607 112 [3; 3; 4]; Mo 163337 144 [2; 4; 4]; Mo 20405 8 [2; 3; 5]; Mo 95461 24 [1; 4; 5]; Mo 14603 8 [2; 2; 6]; Mo 38079 8 [1; 3; 6]; Mo 83303 12 [1; 2; 7]; Mo 104819 16 [1; 1; 8]; Mo (-1452087) 1 [6; 6]; Mo (-5931849) 2 [5; 7]; Mo (-12685101) 4 [4; 8]; Mo (-14412255) 4 [3; 9]; Mo (-9078901) 2 [2; 10]; Mo (-14482351) 2 [1; 11]]]];
 [[[Mo 1 12 [1; 2; 2; 2]; Mo 5 16 [1; 1; 2; 3]; Mo 7 48 [1; 1; 1; 4]; Mo (-2875) 112 [3; 3; 3]; Mo (-675) 4 [2; 3; 4]; Mo (-2009) 18 [1; 4; 4]; Mo (-1953) 20 [2; 2; 5]; Mo (-943) 4 [1; 3; 5]; Mo (-1133) 4 [1; 2; 6]; Mo (-10153) 48 [1; 1; 7]; Mo 60291 1 [5; 6]; Mo 255255 4 [4; 7]; Mo 289575 4 [3; 8]; Mo 182325 2 [2; 9]; Mo 142766 1 [1; 10]; Mo (-58503375) 1 [13]]; [Mo (-1) 4 [2; 2; 2; 2]; Mo (-15) 4 [1; 2; 2; 3]; Mo (-75) 32 [1; 1; 3; 3]; Mo (-21) 4 [1; 1; 2; 4]; Mo (-21) 8 [1; 1; 1; 5]; Mo 22125 16 [3; 3; 4]; Mo 18193 12 [2; 4; 4]; Mo 6405 2 [2; 3; 5]; Mo 8421 2 [1; 4; 5]; Mo 19239 10 [2; 2; 6]; Mo 18447 4 [1; 3; 6]; Mo 28457 5 [1; 2; 7]; Mo 68783 16 [1; 1; 8]; Mo (-663201) 1 [6; 6]; Mo (-5432427) 4 [5; 7]; Mo (-2927925) 2 [4; 8]; Mo (-6746025) 4 [3; 9]; Mo (-4320771) 2 [2; 10]; Mo (-6789783) 2 [1; 11]]];
  [[Mo 25 8 [2; 3; 3]; Mo 7 2 [2; 2; 4]; Mo 35 4 [1; 3; 4]; Mo 21 2 [1; 2; 5]; Mo 33 4 [1; 1; 6]; Mo (-30429) 22 [5; 5]; Mo (-2856) 1 [4; 6]; Mo (-12675) 4 [3; 7]; Mo (-3900) 1 [2; 8]; Mo (-11713) 2 [1; 9]; Mo 2340135 1 [12]]; [Mo (-125) 8 [3; 3; 3]; Mo (-105) 1 [2; 3; 4]; Mo (-147) 2 [1; 4; 4]; Mo (-63) 1 [2; 2; 5]; Mo (-315) 2 [1; 3; 5]; Mo (-198) 1 [1; 2; 6]; Mo (-1287) 8 [1; 1; 7]; Mo 56133 1 [5; 6]; Mo 237237 4 [4; 7]; Mo 268125 4 [3; 8]; Mo 167739 2 [2; 9]; Mo 130169 1 [1; 10]; Mo (-58503375) 1 [13]]];
  [[Mo 1 384 [1; 1; 1; 1; 2]; Mo (-3) 40 [2; 2; 2; 2]; Mo (-7) 8 [1; 2; 2; 3]; Mo (-535) 1344 [1; 1; 3; 3]; Mo (-17) 24 [1; 1; 2; 4]; Mo (-1) 16 [1; 1; 1; 5]; Mo (-178075) 176 [3; 3; 4]; Mo (-98889) 88 [2; 4; 4]; Mo (-210735) 88 [2; 3; 5]; Mo (-71253) 22 [1; 4; 5]; Mo (-29547) 20 [2; 2; 6]; Mo (-28761) 8 [1; 3; 6]; Mo (-45591) 10 [1; 2; 7]; Mo (-57317) 16 [1; 1; 8]; Mo 16792083 26 [6; 6]; Mo 5272155 4 [5; 7]; Mo 5627475 4 [4; 8]; Mo 6389025 4 [3; 9]; Mo 2014551 1 [2; 10]; Mo 3181227 1 [1; 11]]; [Mo (-1) 16 [1; 1; 1; 2; 2]; Mo (-5) 128 [1; 1; 1; 1; 3]; Mo 33 8 [2; 2; 2; 3]; Mo 605 56 [1; 2; 3; 3]; Mo 193 20 [1; 2; 2; 4]; Mo 189 32 [1; 1; 3; 4]; Mo 3 2 [1; 1; 2; 5]; Mo (-99) 16 [1; 1; 1; 6]; Mo 79135 4 [3; 4; 4]; Mo 337275 16 [3; 3; 5]; Mo 373653 8 [2; 4; 5]; Mo 736533 22 [1; 5; 5]; Mo 207603 4 [2; 3; 6]; Mo 558285 8 [1; 4; 6]; Mo 657657 20 [2; 2; 7]; Mo 159393 2 [1; 3; 7]; Mo 205647 2 [1; 2; 8]; Mo 1298375 16 [1; 1; 9]; Mo (-125162037) 4 [6; 7]; Mo (-32432400) 1 [5; 8]; Mo (-70195125) 2 [4; 9]; Mo (-161682495) 4 [3; 10]; Mo (-51849252) 1 [2; 11]; Mo (-164589495) 2 [1; 12]]];
  [[Mo 1 12 [1; 2; 2; 2]; Mo 5 16 [1; 1; 2; 3]; Mo 7 48 [1; 1; 1; 4]; Mo 625 112 [3; 3; 3]; Mo 165 4 [2; 3; 4]; Mo 637 18 [1; 4; 4]; Mo 567 20 [2; 2; 5]; Mo 317 4 [1; 3; 5]; Mo 451 4 [1; 2; 6]; Mo 5291 48 [1; 1; 7]; Mo (-51975) 1 [5; 6]; Mo (-219219) 4 [4; 7]; Mo (-246675) 4 [3; 8]; Mo (-153153) 2 [2; 9]; Mo (-117572) 1 [1; 10]; Mo 58503375 1 [13]]; [Mo (-1) 4 [2; 2; 2; 2]; Mo (-15) 4 [1; 2; 2; 3]; Mo (-75) 32 [1; 1; 3; 3]; Mo (-21) 4 [1; 1; 2; 4]; Mo (-21) 8 [1; 1; 1; 5]; Mo (-5175) 16 [3; 3; 4]; Mo (-4739) 12 [2; 4; 4]; Mo (-1785) 2 [2; 3; 5]; Mo (-1449) 1 [1; 4; 5]; Mo (-6501) 10 [2; 2; 6]; Mo (-6963) 4 [1; 3; 6]; Mo (-51337) 20 [1; 2; 7]; Mo (-39897) 16 [1; 1; 8]; Mo 571725 1 [6; 6]; Mo 4675671 4 [5; 7]; Mo 2507505 2 [4; 8]; Mo 5725005 4 [3; 9]; Mo 3615339 2 [2; 10]; Mo 5731635 2 [1; 11]]]];
 [[[Mo 1 24 [2; 2; 2; 2]; Mo 5 8 [1; 2; 2; 3]; Mo 25 64 [1; 1; 3; 3]; Mo 7 8 [1; 1; 2; 4]; Mo 7 16 [1; 1; 1; 5]; Mo (-3775) 16 [3; 3; 4]; Mo (-9317) 36 [2; 4; 4]; Mo (-4375) 8 [2; 3; 5]; Mo (-2905) 4 [1; 4; 5]; Mo (-3289) 10 [2; 2; 6]; Mo (-6369) 8 [1; 3; 6]; Mo (-59059) 60 [1; 2; 7]; Mo (-36179) 48 [1; 1; 8]; Mo 2998017 26 [6; 6]; Mo 944559 4 [5; 7]; Mo 1018325 4 [4; 8]; Mo 1173425 4 [3; 9]; Mo 749683 2 [2; 10]; Mo 594643 1 [1; 11]]];
  [[Mo 125 48 [3; 3; 3]; Mo 35 2 [2; 3; 4]; Mo 49 4 [1; 4; 4]; Mo 21 2 [2; 2; 5]; Mo 105 4 [1; 3; 5]; Mo 33 1 [1; 2; 6]; Mo 429 16 [1; 1; 7]; Mo (-9702) 1 [5; 6]; Mo (-41041) 4 [4; 7]; Mo (-46475) 4 [3; 8]; Mo (-14586) 1 [2; 9]; Mo (-67184) 3 [1; 10]; Mo 10214875 1 [13]]];
  [[Mo 1 96 [1; 1; 1; 2; 2]; Mo 5 768 [1; 1; 1; 1; 3]; Mo (-19) 24 [2; 2; 2; 3]; Mo (-65) 28 [1; 2; 3; 3]; Mo (-263) 120 [1; 2; 2; 4]; Mo (-91) 48 [1; 1; 3; 4]; Mo (-43) 32 [1; 1; 2; 5]; Mo 11 32 [1; 1; 1; 6]; Mo (-477505) 144 [3; 4; 4]; Mo (-56575) 16 [3; 3; 5]; Mo (-62895) 8 [2; 4; 5]; Mo (-125307) 22 [1; 5; 5]; Mo (-34991) 4 [2; 3; 6]; Mo (-95053) 8 [1; 4; 6]; Mo (-445731) 80 [2; 2; 7]; Mo (-326417) 24 [1; 3; 7]; Mo (-17667) 1 [1; 2; 8]; Mo (-681343) 48 [1; 1; 9]; Mo 21702681 4 [6; 7]; Mo 22503195 4 [5; 8]; Mo 24370775 4 [4; 9]; Mo 196534195 28 [3; 10]; Mo 17975919 2 [2; 11]; Mo 28802233 2 [1; 12]]];
  [[Mo 1 24 [2; 2; 2; 2]; Mo 5 8 [1; 2; 2; 3]; Mo 25 64 [1; 1; 3; 3]; Mo 7 8 [1; 1; 2; 4]; Mo 7 16 [1; 1; 1; 5]; Mo 775 16 [3; 3; 4]; Mo 2149 36 [2; 4; 4]; Mo 1085 8 [2; 3; 5]; Mo 917 4 [1; 4; 5]; Mo 1001 10 [2; 2; 6]; Mo 2211 8 [1; 3; 6]; Mo 6149 15 [1; 2; 7]; Mo 19591 48 [1; 1; 8]; Mo (-2551527) 26 [6; 6]; Mo (-803187) 4 [5; 7]; Mo (-863555) 4 [4; 8]; Mo (-990165) 4 [3; 9]; Mo (-627589) 2 [2; 10]; Mo (-492898) 1 [1; 11]]]]].
(** matslise_formulas.cpp: tDelta(5, 0..16) *)
Definition tdelta_row5 : list (list hentry) := [
 [[];
  [];
  [];
  []];
 [[];
  [];
  [];
  []];
 [[];
  [];
  [];
  []];
 [[];
  [];
  [];
  []];
 [[];
  [];
  [];
  []];
 [[];
  [];
  [];
  []];
 [[];
  [];
  [];
  []];
 [[];
  [];
  [];
  []];
 [[];
  [];
  [];
  []];
 [[[Mo 1 48 [1; 1; 1]; Mo (-15) 4 [2; 3]; Mo (-21) 4 [1; 4]; Mo 1287 2 [7]]; [Mo (-7) 16 [1; 1; 2]; Mo 75 4 [3; 3]; Mo 42 1 [2; 4]; Mo 63 1 [1; 5]; Mo (-19305) 2 [8]]; [Mo 25 16 [1; 2; 2]; Mo 31 16 [1; 1; 3]; Mo (-219) 1 [3; 4]; Mo (-525) 2 [2; 5]; Mo (-819) 2 [1; 6]; Mo 77220 1 [9]]; [Mo 1 96 [1; 1; 1; 1]; Mo (-21) 16 [2; 2; 2]; Mo (-77) 8 [1; 2; 3]; Mo (-105) 16 [1; 1; 4]; Mo 1785 4 [4; 4]; Mo 1911 2 [3; 5]; Mo 1197 1 [2; 6]; Mo 7623 4 [1; 7]; Mo (-437580) 1 [10]]; [Mo (-1) 16 [1; 1; 1; 2]; Mo 155 16 [2; 2; 3]; Mo 93 8 [1; 3; 3]; Mo 207 8 [1; 2; 4]; Mo 295 16 [1; 1; 5]; Mo (-12243) 4 [4; 5]; Mo (-13713) 4 [3; 6]; Mo (-17703) 4 [2; 7]; Mo (-28413) 4 [1; 8]; Mo 1969110 1 [11]]; [Mo 1 8 [1; 1; 2; 2]; Mo 3 32 [1; 1; 1; 3]; Mo (-161) 8 [2; 3; 3]; Mo (-357) 16 [2; 2; 4]; Mo (-105) 2 [1; 3; 4]; Mo (-497) 8 [1; 2; 5]; Mo (-721) 16 [1; 1; 6]; Mo 8799 2 [5; 5]; Mo 18417 2 [4; 6]; Mo 10647 1 [3; 7]; Mo 56133 4 [2; 8]; Mo 45045 2 [1; 9]; Mo (-7482618) 1 [12]]; [Mo (-5) 48 [1; 2; 2; 2]; Mo (-11) 32 [1; 1; 2; 3]; Mo (-13) 96 [1; 1; 1; 4]; Mo 197 16 [3; 3; 3]; Mo 163 2 [2; 3; 4]; Mo 415 8 [1; 4; 4]; Mo 767 16 [2; 2; 5]; Mo 885 8 [1; 3; 5]; Mo 1087 8 [1; 2; 6]; Mo 791 8 [1; 1; 7]; Mo (-23100) 1 [5; 6]; Mo (-24969) 1 [4; 7]; Mo (-29547) 1 [3; 8]; Mo (-39501) 1 [2; 9]; Mo (-63063) 1 [1; 10]; Mo 24942060 1 [13]]; [Mo 1 32 [2; 2; 2; 2]; Mo 13 32 [1; 2; 2; 3]; Mo 7 32 [1; 1; 3; 3]; Mo 15 32 [1; 1; 2; 4]; Mo 3 16 [1; 1; 1; 5]; Mo (-1085) 16 [3; 3; 4]; Mo (-595) 8 [2; 4; 4]; Mo (-1267) 8 [2; 3; 5]; Mo (-1575) 8 [1; 4; 5]; Mo (-1545) 16 [2; 2; 6]; Mo (-1751) 8 [1; 3; 6]; Mo (-275) 1 [1; 2; 7]; Mo (-1593) 8 [1; 1; 8]; Mo 54369 2 [6; 6]; Mo 112329 2 [5; 7]; Mo 62181 1 [4; 8]; Mo 299475 4 [3; 9]; Mo 202059 2 [2; 10]; Mo 639639 4 [1; 11]]];
  [[Mo 9 40 [2; 2]; Mo 1 2 [1; 3]; Mo (-99) 2 [6]]; [Mo 1 48 [1; 1; 1]; Mo (-15) 4 [2; 3]; Mo (-21) 4 [1; 4]; Mo 1287 2 [7]]; [Mo (-5) 24 [1; 1; 2]; Mo 69 8 [3; 3]; Mo 19 1 [2; 4]; Mo 119 4 [1; 5]; Mo (-9009) 2 [8]]; [Mo 7 16 [1; 2; 2]; Mo 7 12 [1; 1; 3]; Mo (-123) 2 [3; 4]; Mo (-147) 2 [2; 5]; Mo (-483) 4 [1; 6]; Mo 45045 2 [9]]; [Mo 1 384 [1; 1; 1; 1]; Mo (-1) 4 [2; 2; 2]; Mo (-15) 8 [1; 2; 3]; Mo (-11) 8 [1; 1; 4]; Mo 699 8 [4; 4]; Mo 186 1 [3; 5]; Mo 945 4 [2; 6]; Mo 1575 4 [1; 7]; Mo (-90090) 1 [10]]; [Mo (-1) 96 [1; 1; 1; 2]; Mo 11 8 [2; 2; 3]; Mo 13 8 [1; 3; 3]; Mo 91 24 [1; 2; 4]; Mo 17 6 [1; 1; 5]; Mo (-1785) 4 [4; 5]; Mo (-1995) 4 [3; 6]; Mo (-13209) 20 [2; 7]; Mo (-4389) 4 [1; 8]; Mo 306306 1 [11]]; [Mo 1 64 [1; 1; 2; 2]; Mo 1 96 [1; 1; 1; 3]; Mo (-35) 16 [2; 3; 3]; Mo (-5) 2 [2; 2; 4]; Mo (-17) 3 [1; 3; 4]; Mo (-57) 8 [1; 2; 5]; Mo (-253) 48 [1; 1; 6]; Mo 4011 8 [5; 5]; Mo 2093 2 [4; 6]; Mo 4865 4 [3; 7]; Mo 6615 4 [2; 8]; Mo 10857 4 [1; 9]; Mo (-918918) 1 [12]]; [Mo (-1) 96 [1; 2; 2; 2]; Mo (-1) 32 [1; 1; 2; 3]; Mo (-1) 96 [1; 1; 1; 4]; Mo 17 16 [3; 3; 3]; Mo 57 8 [2; 3; 4]; Mo 35 8 [1; 4; 4]; Mo 35 8 [2; 2; 5]; Mo 77 8 [1; 3; 5]; Mo 25 2 [1; 2; 6]; Mo 145 16 [1; 1; 7]; Mo (-2121) 1 [5; 6]; Mo (-2289) 1 [4; 7]; Mo (-10971) 4 [3; 8]; Mo (-15147) 4 [2; 9]; Mo (-24453) 4 [1; 10]; Mo 2494206 1 [13]]];
  [[Mo 37 80 [1; 1; 2]; Mo (-1065) 56 [3; 3]; Mo (-165) 4 [2; 4]; Mo (-261) 4 [1; 5]; Mo 19305 2 [8]]; [Mo (-279) 80 [1; 2; 2]; Mo (-69) 16 [1; 1; 3]; Mo 945 2 [3; 4]; Mo 567 1 [2; 5]; Mo 891 1 [1; 6]; Mo (-328185) 2 [9]]; [Mo (-7) 192 [1; 1; 1; 1]; Mo 39 8 [2; 2; 2]; Mo 691 20 [1; 2; 3]; Mo 185 8 [1; 1; 4]; Mo (-12405) 8 [4; 4]; Mo (-13251) 4 [3; 5]; Mo (-16731) 4 [2; 6]; Mo (-26235) 4 [1; 7]; Mo 2953665 2 [10]]; [Mo 31 96 [1; 1; 1; 2]; Mo (-513) 10 [2; 2; 3]; Mo (-953) 16 [1; 3; 3]; Mo (-1061) 8 [1; 2; 4]; Mo (-735) 8 [1; 1; 5]; Mo 15120 1 [4; 5]; Mo 16956 1 [3; 6]; Mo 21978 1 [2; 7]; Mo 137709 4 [1; 8]; Mo (-18706545) 2 [11]]; [Mo (-43) 48 [1; 1; 2; 2]; Mo (-2) 3 [1; 1; 1; 3]; Mo 11427 80 [2; 3; 3]; Mo 12517 80 [2; 2; 4]; Mo 1443 4 [1; 3; 4]; Mo 1697 4 [1; 2; 5]; Mo 4781 16 [1; 1; 6]; Mo (-57765) 2 [5; 5]; Mo (-60447) 1 [4; 6]; Mo (-70110) 1 [3; 7]; Mo (-92169) 1 [2; 8]; Mo (-144144) 1 [1; 9]; Mo 93532725 2 [12]]; [Mo (-1) 3840 [1; 1; 1; 1; 1]; Mo 31 32 [1; 2; 2; 2]; Mo 313 96 [1; 1; 2; 3]; Mo 61 48 [1; 1; 1; 4]; Mo (-1809) 16 [3; 3; 3]; Mo (-2943) 4 [2; 3; 4]; Mo (-7319) 16 [1; 4; 4]; Mo (-34047) 80 [2; 2; 5]; Mo (-7811) 8 [1; 3; 5]; Mo (-11823) 10 [1; 2; 6]; Mo (-67137) 80 [1; 1; 7]; Mo 192726 1 [5; 6]; Mo 208521 1 [4; 7]; Mo 247401 1 [3; 8]; Mo 1311453 4 [2; 9]; Mo 2045043 4 [1; 10]; Mo (-392837445) 2 [13]]; [Mo 1 768 [1; 1; 1; 1; 2]; Mo (-23) 64 [2; 2; 2; 2]; Mo (-77) 16 [1; 2; 2; 3]; Mo (-517) 192 [1; 1; 3; 3]; Mo (-181) 32 [1; 1; 2; 4]; Mo (-217) 96 [1; 1; 1; 5]; Mo 6161 8 [3; 3; 4]; Mo 13289 16 [2; 4; 4]; Mo 14079 8 [2; 3; 5]; Mo 8655 4 [1; 4; 5]; Mo 21051 20 [2; 2; 6]; Mo 9605 4 [1; 3; 6]; Mo 118279 40 [1; 2; 7]; Mo 33663 16 [1; 1; 8]; Mo (-558747) 2 [6; 6]; Mo (-577323) 1 [5; 7]; Mo (-640332) 1 [4; 8]; Mo (-771309) 1 [3; 9]; Mo (-1027026) 1 [2; 10]; Mo (-1594593) 1 [1; 11]]; [Mo (-1) 384 [1; 1; 1; 2; 2]; Mo (-1) 768 [1; 1; 1; 1; 3]; Mo 71 32 [2; 2; 2; 3]; Mo 59 8 [1; 2; 3; 3]; Mo 187 24 [1; 2; 2; 4]; Mo 277 32 [1; 1; 3; 4]; Mo 449 48 [1; 1; 2; 5]; Mo 91 24 [1; 1; 1; 6]; Mo (-25269) 16 [3; 4; 4]; Mo (-13311) 8 [3; 3; 5]; Mo (-7155) 2 [2; 4; 5]; Mo (-36701) 16 [1; 5; 5]; Mo (-157437) 40 [2; 3; 6]; Mo (-38339) 8 [1; 4; 6]; Mo (-19227) 8 [2; 2; 7]; Mo (-217857) 40 [1; 3; 7]; Mo (-271077) 40 [1; 2; 8]; Mo (-77055) 16 [1; 1; 9]; Mo 1494234 1 [6; 7]; Mo 1582686 1 [5; 8]; Mo 1787940 1 [4; 9]; Mo 60917571 28 [3; 10]; Mo 11620323 4 [2; 11]; Mo 4485195 1 [1; 12]]];
  [[Mo (-1) 48 [1; 1; 1]; Mo 15 4 [2; 3]; Mo 21 4 [1; 4]; Mo (-1287) 2 [7]]; [Mo 7 16 [1; 1; 2]; Mo (-75) 4 [3; 3]; Mo (-42) 1 [2; 4]; Mo (-63) 1 [1; 5]; Mo 19305 2 [8]]; [Mo (-25) 16 [1; 2; 2]; Mo (-31) 16 [1; 1; 3]; Mo 219 1 [3; 4]; Mo 525 2 [2; 5]; Mo 819 2 [1; 6]; Mo (-77220) 1 [9]]; [Mo (-1) 96 [1; 1; 1; 1]; Mo 21 16 [2; 2; 2]; Mo 77 8 [1; 2; 3]; Mo 105 16 [1; 1; 4]; Mo (-1785) 4 [4; 4]; Mo (-1911) 2 [3; 5]; Mo (-1197) 1 [2; 6]; Mo (-7623) 4 [1; 7]; Mo 437580 1 [10]]; [Mo 1 16 [1; 1; 1; 2]; Mo (-155) 16 [2; 2; 3]; Mo (-93) 8 [1; 3; 3]; Mo (-207) 8 [1; 2; 4]; Mo (-295) 16 [1; 1; 5]; Mo 12243 4 [4; 5]; Mo 13713 4 [3; 6]; Mo 17703 4 [2; 7]; Mo 28413 4 [1; 8]; Mo (-1969110) 1 [11]]; [Mo (-1) 8 [1; 1; 2; 2]; Mo (-3) 32 [1; 1; 1; 3]; Mo 161 8 [2; 3; 3]; Mo 357 16 [2; 2; 4]; Mo 105 2 [1; 3; 4]; Mo 497 8 [1; 2; 5]; Mo 721 16 [1; 1; 6]; Mo (-8799) 2 [5; 5]; Mo (-18417) 2 [4; 6]; Mo (-10647) 1 [3; 7]; Mo (-56133) 4 [2; 8]; Mo (-45045) 2 [1; 9]; Mo 7482618 1 [12]]; [Mo 5 48 [1; 2; 2; 2]; Mo 11 32 [1; 1; 2; 3]; Mo 13 96 [1; 1; 1; 4]; Mo (-197) 16 [3; 3; 3]; Mo (-163) 2 [2; 3; 4]; Mo (-415) 8 [1; 4; 4]; Mo (-767) 16 [2; 2; 5]; Mo (-885) 8 [1; 3; 5]; Mo (-1087) 8 [1; 2; 6]; Mo (-791) 8 [1; 1; 7]; Mo 23100 1 [5; 6]; Mo 24969 1 [4; 7]; Mo 29547 1 [3; 8]; Mo 39501 1 [2; 9]; Mo 63063 1 [1; 10]; Mo (-24942060) 1 [13]]; [Mo (-1) 32 [2; 2; 2; 2]; Mo (-13) 32 [1; 2; 2; 3]; Mo (-7) 32 [1; 1; 3; 3]; Mo (-15) 32 [1; 1; 2; 4]; Mo (-3) 16 [1; 1; 1; 5]; Mo 1085 16 [3; 3; 4]; Mo 595 8 [2; 4; 4]; Mo 1267 8 [2; 3; 5]; Mo 1575 8 [1; 4; 5]; Mo 1545 16 [2; 2; 6]; Mo 1751 8 [1; 3; 6]; Mo 275 1 [1; 2; 7]; Mo 1593 8 [1; 1; 8]; Mo (-54369) 2 [6; 6]; Mo (-112329) 2 [5; 7]; Mo (-62181) 1 [4; 8]; Mo (-299475) 4 [3; 9]; Mo (-202059) 2 [2; 10]; Mo (-639639) 4 [1; 11]]]];
 [[[Mo 37 80 [1; 1; 2]; Mo (-1065) 56 [3; 3]; Mo (-165) 4 [2; 4]; Mo (-261) 4 [1; 5]; Mo 19305 2 [8]]; [Mo (-279) 80 [1; 2; 2]; Mo (-69) 16 [1; 1; 3]; Mo 945 2 [3; 4]; Mo 567 1 [2; 5]; Mo 891 1 [1; 6]; Mo (-328185) 2 [9]]; [Mo (-7) 192 [1; 1; 1; 1]; Mo 39 8 [2; 2; 2]; Mo 691 20 [1; 2; 3]; Mo 185 8 [1; 1; 4]; Mo (-12405) 8 [4; 4]; Mo (-13251) 4 [3; 5]; Mo (-16731) 4 [2; 6]; Mo (-26235) 4 [1; 7]; Mo 2953665 2 [10]]; [Mo 31 96 [1; 1; 1; 2]; Mo (-513) 10 [2; 2; 3]; Mo (-953) 16 [1; 3; 3]; Mo (-1061) 8 [1; 2; 4]; Mo (-735) 8 [1; 1; 5]; Mo 15120 1 [4; 5]; Mo 16956 1 [3; 6]; Mo 21978 1 [2; 7]; Mo 137709 4 [1; 8]; Mo (-18706545) 2 [11]]; [Mo (-43) 48 [1; 1; 2; 2]; Mo (-2) 3 [1; 1; 1; 3]; Mo 11427 80 [2; 3; 3]; Mo 12517 80 [2; 2; 4]; Mo 1443 4 [1; 3; 4]; Mo 1697 4 [1; 2; 5]; Mo 4781 16 [1; 1; 6]; Mo (-57765) 2 [5; 5]; Mo (-60447) 1 [4; 6]; Mo (-70110) 1 [3; 7]; Mo (-92169) 1 [2; 8]; Mo (-144144) 1 [1; 9]; Mo 93532725 2 [12]]; [Mo (-1) 3840 [1; 1; 1; 1; 1]; Mo 31 32 [1; 2; 2; 2]; Mo 313 96 [1; 1; 2; 3]; Mo 61 48 [1; 1; 1; 4]; Mo (-1809) 16 [3; 3; 3]; Mo (-2943) 4 [2; 3; 4]; Mo (-7319) 16 [1; 4; 4]; Mo (-34047) 80 [2; 2; 5]; Mo (-7811) 8 [1; 3; 5]; Mo (-11823) 10 [1; 2; 6]; Mo (-67137) 80 [1; 1; 7]; Mo 192726 1 [5; 6]; Mo 208521 1 [4; 7]; Mo 247401 1 [3; 8]; Mo 1311453 4 [2; 9]; Mo 2045043 4 [1; 10]; Mo (-392837445) 2 [13]]; [Mo 1 768 [1; 1; 1; 1; 2]; Mo (-23) 64 [2; 2; 2; 2]; Mo (-77) 16 [1; 2; 2; 3]; Mo (-517) 192 [1; 1; 3; 3]; Mo (-181) 32 [1; 1; 2; 4]; Mo (-217) 96 [1; 1; 1; 5]; Mo 6161 8 [3; 3; 4]; Mo 13289 16 [2; 4; 4]; Mo 14079 8 [2; 3; 5]; Mo 8655 4 [1; 4; 5]; Mo 21051 20 [2; 2; 6]; Mo 9605 4 [1; 3; 6]; Mo 118279 40 [1; 2; 7]; Mo 33663 16 [1; 1; 8]; Mo (-558747) 2 [6; 6]; Mo (-577323) 1 [5; 7]; Mo (-640332) 1 [4; 8]; Mo (-771309) 1 [3; 9]; Mo (-1027026) 1 [2; 10]; Mo (-1594593) 1 [1; 11]]];
  [[Mo (-1) 48 [1; 1; 1]; Mo 15 4 [2; 3]; Mo 21 4 [1; 4]; Mo (-1287) 2 [7]]; [Mo 7 16 [1; 1; 2]; Mo (-75) 4 [3; 3]; Mo (-42) 1 [2; 4]; Mo (-63) 1 [1; 5]; Mo 19305 2 [8]]; [Mo (-25) 16 [1; 2; 2]; Mo (-31) 16 [1; 1; 3]; Mo 219 1 [3; 4]; Mo 525 2 [2; 5]; Mo 819 2 [1; 6]; Mo (-77220) 1 [9]]; [Mo (-1) 96 [1; 1; 1; 1]; Mo 21 16 [2; 2; 2]; Mo 77 8 [1; 2; 3]; Mo 105 16 [1; 1; 4]; Mo (-1785) 4 [4; 4]; Mo (-1911) 2 [3; 5]; Mo (-1197) 1 [2; 6]; Mo (-7623) 4 [1; 7]; Mo 437580 1 [10]]; [Mo 1 16 [1; 1; 1; 2]; Mo (-155) 16 [2; 2; 3]; Mo (-93) 8 [1; 3; 3]; Mo (-207) 8 [1; 2; 4]; Mo (-295) 16 [1; 1; 5]; Mo 12243 4 [4; 5]; Mo 13713 4 [3; 6]; Mo 17703 4 [2; 7]; Mo 28413 4 [1; 8]; Mo (-1969110) 1 [11]]; [Mo (-1) 8 [1; 1; 2; 2]; Mo (-3) 32 [1; 1; 1; 3]; Mo 161 8 [2; 3; 3]; Mo 357 16 [2; 2; 4]; Mo 105 2 [1; 3; 4]; Mo 497 8 [1; 2; 5]; Mo 721 16 [1; 1; 6]; Mo (-8799) 2 [5; 5]; Mo (-18417) 2 [4; 6]; Mo (-10647) 1 [3; 7]; Mo (-56133) 4 [2; 8]; Mo (-45045) 2 [1; 9]; Mo 7482618 1 [12]]; [Mo 5 48 [1; 2; 2; 2]; Mo 11 32 [1; 1; 2; 3]; Mo 13 96 [1; 1; 1; 4]; Mo (-197) 16 [3; 3; 3]; Mo (-163) 2 [2; 3; 4]; Mo (-415) 8 [1; 4; 4]; Mo (-767) 16 [2; 2; 5]; Mo (-885) 8 [1; 3; 5]; Mo (-1087) 8 [1; 2; 6]; Mo (-791) 8 [1; 1; 7]; Mo 23100 1 [5; 6]; Mo 24969 1 [4; 7]; Mo 29547 1 [3; 8]; Mo 39501 1 [2; 9]; Mo 63063 1 [1; 10]; Mo (-24942060) 1 [13]]];
  [[Mo 279 80 [1; 2; 2]; Mo 69 16 [1; 1; 3]; Mo (-945) 2 [3; 4]; Mo (-567) 1 [2; 5]; Mo (-891) 1 [1; 6]; Mo 328185 2 [9]]; [Mo 7 96 [1; 1; 1; 1]; Mo (-837) 80 [2; 2; 2]; Mo (-591) 8 [1; 2; 3]; Mo (-777) 16 [1; 1; 4]; Mo 6615 2 [4; 4]; Mo 14175 2 [3; 5]; Mo 8910 1 [2; 6]; Mo 55341 4 [1; 7]; Mo (-6235515) 2 [10]]; [Mo (-25) 24 [1; 1; 1; 2]; Mo 14199 80 [2; 2; 3]; Mo 3273 16 [1; 3; 3]; Mo 3609 8 [1; 2; 4]; Mo 4893 16 [1; 1; 5]; Mo (-103005) 2 [4; 5]; Mo (-115587) 2 [3; 6]; Mo (-297693) 4 [2; 7]; Mo (-459459) 4 [1; 8]; Mo 31177575 1 [11]]; [Mo 67 16 [1; 1; 2; 2]; Mo 149 48 [1; 1; 1; 3]; Mo (-11277) 16 [2; 3; 3]; Mo (-12279) 16 [2; 2; 4]; Mo (-3513) 2 [1; 3; 4]; Mo (-2037) 1 [1; 2; 5]; Mo (-22491) 16 [1; 1; 6]; Mo 138915 1 [5; 5]; Mo 581985 2 [4; 6]; Mo 1347291 4 [3; 7]; Mo 1756755 4 [2; 8]; Mo 675675 1 [1; 9]; Mo (-218243025) 1 [12]]; [Mo 1 768 [1; 1; 1; 1; 1]; Mo (-49) 8 [1; 2; 2; 2]; Mo (-165) 8 [1; 1; 2; 3]; Mo (-193) 24 [1; 1; 1; 4]; Mo 744 1 [3; 3; 3]; Mo 4818 1 [2; 3; 4]; Mo 47499 16 [1; 4; 4]; Mo 11019 4 [2; 2; 5]; Mo 50343 8 [1; 3; 5]; Mo 60039 8 [1; 2; 6]; Mo 41895 8 [1; 1; 7]; Mo (-1223910) 1 [5; 6]; Mo (-5297499) 4 [4; 7]; Mo (-6259869) 4 [3; 8]; Mo (-2054052) 1 [2; 9]; Mo (-3153150) 1 [1; 10]; Mo 2400673275 2 [13]]; [Mo (-7) 768 [1; 1; 1; 1; 2]; Mo 93 32 [2; 2; 2; 2]; Mo 629 16 [1; 2; 2; 3]; Mo 709 32 [1; 1; 3; 3]; Mo 743 16 [1; 1; 2; 4]; Mo 56 3 [1; 1; 1; 5]; Mo (-6447) 1 [3; 3; 4]; Mo (-110727) 16 [2; 4; 4]; Mo (-116721) 8 [2; 3; 5]; Mo (-142905) 8 [1; 4; 5]; Mo (-343917) 40 [2; 2; 6]; Mo (-156975) 8 [1; 3; 6]; Mo (-237951) 10 [1; 2; 7]; Mo (-133749) 8 [1; 1; 8]; Mo 2241351 1 [6; 6]; Mo 18532737 4 [5; 7]; Mo 20530125 4 [4; 8]; Mo 12297285 2 [3; 9]; Mo 8099091 1 [2; 10]; Mo 12405393 1 [1; 11]]; [Mo 3 128 [1; 1; 1; 2; 2]; Mo 5 384 [1; 1; 1; 1; 3]; Mo (-179) 8 [2; 2; 2; 3]; Mo (-605) 8 [1; 2; 3; 3]; Mo (-637) 8 [1; 2; 2; 4]; Mo (-359) 4 [1; 1; 3; 4]; Mo (-387) 4 [1; 1; 2; 5]; Mo (-119) 3 [1; 1; 1; 6]; Mo 32643 2 [3; 4; 4]; Mo 68517 4 [3; 3; 5]; Mo 293325 8 [2; 4; 5]; Mo 375081 16 [1; 5; 5]; Mo 319935 8 [2; 3; 6]; Mo 389907 8 [1; 4; 6]; Mo 961443 40 [2; 2; 7]; Mo 438081 8 [1; 3; 7]; Mo 134253 2 [1; 2; 8]; Mo 757449 16 [1; 1; 9]; Mo (-58759281) 4 [6; 7]; Mo (-62232975) 4 [5; 8]; Mo (-35062335) 2 [4; 9]; Mo (-42387345) 2 [3; 10]; Mo (-27972945) 1 [2; 11]; Mo (-42729687) 1 [1; 12]]];
  [[Mo (-33) 80 [1; 1; 2]; Mo 1035 56 [3; 3]; Mo 171 4 [2; 4]; Mo 243 4 [1; 5]; Mo (-19305) 2 [8]]; [Mo 261 80 [1; 2; 2]; Mo 61 16 [1; 1; 3]; Mo (-945) 2 [3; 4]; Mo (-567) 1 [2; 5]; Mo (-1683) 2 [1; 6]; Mo 328185 2 [9]]; [Mo 5 192 [1; 1; 1; 1]; Mo (-9) 2 [2; 2; 2]; Mo (-161) 5 [1; 2; 3]; Mo (-165) 8 [1; 1; 4]; Mo 12375 8 [4; 4]; Mo 13293 4 [3; 5]; Mo 16407 4 [2; 6]; Mo 25047 4 [1; 7]; Mo (-2953665) 2 [10]]; [Mo (-23) 96 [1; 1; 1; 2]; Mo 1893 40 [2; 2; 3]; Mo 907 16 [1; 3; 3]; Mo 979 8 [1; 2; 4]; Mo 665 8 [1; 1; 5]; Mo (-15120) 1 [4; 5]; Mo (-33813) 2 [3; 6]; Mo (-42669) 2 [2; 7]; Mo (-132561) 4 [1; 8]; Mo 18706545 2 [11]]; [Mo 2 3 [1; 1; 2; 2]; Mo 25 48 [1; 1; 1; 3]; Mo (-10593) 80 [2; 3; 3]; Mo (-11503) 80 [2; 2; 4]; Mo (-343) 1 [1; 3; 4]; Mo (-779) 2 [1; 2; 5]; Mo (-4389) 16 [1; 1; 6]; Mo 57735 2 [5; 5]; Mo 120879 2 [4; 6]; Mo 138681 2 [3; 7]; Mo 178101 2 [2; 8]; Mo 279279 2 [1; 9]; Mo (-93532725) 2 [12]]; [Mo (-1) 3840 [1; 1; 1; 1; 1]; Mo (-23) 32 [1; 2; 2; 2]; Mo (-239) 96 [1; 1; 2; 3]; Mo (-25) 24 [1; 1; 1; 4]; Mo 1671 16 [3; 3; 3]; Mo 683 1 [2; 3; 4]; Mo 7041 16 [1; 4; 4]; Mo 31173 80 [2; 2; 5]; Mo 7369 8 [1; 3; 5]; Mo 10857 10 [1; 2; 6]; Mo 62433 80 [1; 1; 7]; Mo (-385353) 2 [5; 6]; Mo (-415755) 2 [4; 7]; Mo (-485793) 2 [3; 8]; Mo (-1265121) 4 [2; 9]; Mo (-1990989) 4 [1; 10]; Mo 392837445 2 [13]]; [Mo 1 768 [1; 1; 1; 1; 2]; Mo 17 64 [2; 2; 2; 2]; Mo 29 8 [1; 2; 2; 3]; Mo 395 192 [1; 1; 3; 3]; Mo 143 32 [1; 1; 2; 4]; Mo 185 96 [1; 1; 1; 5]; Mo (-2847) 4 [3; 3; 4]; Mo (-12431) 16 [2; 4; 4]; Mo (-13041) 8 [2; 3; 5]; Mo (-2080) 1 [1; 4; 5]; Mo (-38493) 40 [2; 2; 6]; Mo (-8995) 4 [1; 3; 6]; Mo (-109011) 40 [1; 2; 7]; Mo (-31647) 16 [1; 1; 8]; Mo 279279 1 [6; 6]; Mo 1153611 2 [5; 7]; Mo 1270899 2 [4; 8]; Mo 1505889 2 [3; 9]; Mo 990990 1 [2; 10]; Mo 1558557 1 [1; 11]]]];
 [[[Mo 31 16 [1; 2; 2]; Mo 115 48 [1; 1; 3]; Mo (-525) 2 [3; 4]; Mo (-315) 1 [2; 5]; Mo (-495) 1 [1; 6]; Mo 182325 2 [9]]; [Mo 1 24 [1; 1; 1; 1]; Mo (-93) 16 [2; 2; 2]; Mo (-165) 4 [1; 2; 3]; Mo (-1309) 48 [1; 1; 4]; Mo 3675 2 [4; 4]; Mo 7875 2 [3; 5]; Mo 4950 1 [2; 6]; Mo 7722 1 [1; 7]; Mo (-3464175) 2 [10]]; [Mo (-29) 48 [1; 1; 1; 2]; Mo 1581 16 [2; 2; 3]; Mo 1835 16 [1; 3; 3]; Mo 1013 4 [1; 2; 4]; Mo 8323 48 [1; 1; 5]; Mo (-57225) 2 [4; 5]; Mo (-64215) 2 [3; 6]; Mo (-41382) 1 [2; 7]; Mo (-64350) 1 [1; 8]; Mo 17320875 1 [11]]; [Mo 39 16 [1; 1; 2; 2]; Mo 11 6 [1; 1; 1; 3]; Mo (-6285) 16 [2; 3; 3]; Mo (-6859) 16 [2; 2; 4]; Mo (-23719) 24 [1; 3; 4]; Mo (-4599) 4 [1; 2; 5]; Mo (-12859) 16 [1; 1; 6]; Mo 77175 1 [5; 5]; Mo 323325 2 [4; 6]; Mo 374319 2 [3; 7]; Mo 244530 1 [2; 8]; Mo 379665 1 [1; 9]; Mo (-121246125) 1 [12]]; [Mo 1 768 [1; 1; 1; 1; 1]; Mo (-57) 16 [1; 2; 2; 2]; Mo (-97) 8 [1; 1; 2; 3]; Mo (-29) 6 [1; 1; 1; 4]; Mo 3315 8 [3; 3; 3]; Mo 21531 8 [2; 3; 4]; Mo 80369 48 [1; 4; 4]; Mo 1545 1 [2; 2; 5]; Mo 28421 8 [1; 3; 5]; Mo 34069 8 [1; 2; 6]; Mo 12061 4 [1; 1; 7]; Mo (-679950) 1 [5; 6]; Mo (-1471599) 2 [4; 7]; Mo (-1739925) 2 [3; 8]; Mo (-1145430) 1 [2; 9]; Mo (-1776060) 1 [1; 10]; Mo 1333707375 2 [13]]; [Mo (-7) 768 [1; 1; 1; 1; 2]; Mo 27 16 [2; 2; 2; 2]; Mo 23 1 [1; 2; 2; 3]; Mo 209 16 [1; 1; 3; 3]; Mo 221 8 [1; 1; 2; 4]; Mo 547 48 [1; 1; 1; 5]; Mo (-28759) 8 [3; 3; 4]; Mo (-61949) 16 [2; 4; 4]; Mo (-16347) 2 [2; 3; 5]; Mo (-242347) 24 [1; 4; 5]; Mo (-38745) 8 [2; 2; 6]; Mo (-44457) 4 [1; 3; 6]; Mo (-54285) 4 [1; 2; 7]; Mo (-38731) 4 [1; 1; 8]; Mo 1245195 1 [6; 6]; Mo 2574027 1 [5; 7]; Mo 5703885 2 [4; 8]; Mo 6840405 2 [3; 9]; Mo 4523805 1 [2; 10]; Mo 7001280 1 [1; 11]]];
  [[Mo (-11) 48 [1; 1; 2]; Mo 575 56 [3; 3]; Mo 95 4 [2; 4]; Mo 135 4 [1; 5]; Mo (-10725) 2 [8]]; [Mo 73 40 [1; 2; 2]; Mo 103 48 [1; 1; 3]; Mo (-525) 2 [3; 4]; Mo (-315) 1 [2; 5]; Mo (-1881) 4 [1; 6]; Mo 182325 2 [9]]; [Mo 1 64 [1; 1; 1; 1]; Mo (-201) 80 [2; 2; 2]; Mo (-145) 8 [1; 2; 3]; Mo (-47) 4 [1; 1; 4]; Mo 6875 8 [4; 4]; Mo 7385 4 [3; 5]; Mo 4563 2 [2; 6]; Mo 7029 2 [1; 7]; Mo (-1640925) 2 [10]]; [Mo (-7) 48 [1; 1; 1; 2]; Mo 2121 80 [2; 2; 3]; Mo 32 1 [1; 3; 3]; Mo 208 3 [1; 2; 4]; Mo 287 6 [1; 1; 5]; Mo (-8400) 1 [4; 5]; Mo (-37581) 4 [3; 6]; Mo (-47553) 4 [2; 7]; Mo (-37323) 2 [1; 8]; Mo 10392525 2 [11]]; [Mo 13 32 [1; 1; 2; 2]; Mo 31 96 [1; 1; 1; 3]; Mo (-297) 4 [2; 3; 3]; Mo (-1619) 20 [2; 2; 4]; Mo (-4663) 24 [1; 3; 4]; Mo (-1777) 8 [1; 2; 5]; Mo (-7637) 48 [1; 1; 6]; Mo 32075 2 [5; 5]; Mo 134321 4 [4; 6]; Mo 154233 4 [3; 7]; Mo 198891 4 [2; 8]; Mo 315315 4 [1; 9]; Mo (-51962625) 2 [12]]; [Mo (-7) 16 [1; 2; 2; 2]; Mo (-49) 32 [1; 1; 2; 3]; Mo (-21) 32 [1; 1; 1; 4]; Mo 117 2 [3; 3; 3]; Mo 3073 8 [2; 3; 4]; Mo 1997 8 [1; 4; 4]; Mo 8823 40 [2; 2; 5]; Mo 2095 4 [1; 3; 5]; Mo 623 1 [1; 2; 6]; Mo 7287 16 [1; 1; 7]; Mo (-428181) 4 [5; 6]; Mo (-462093) 4 [4; 7]; Mo (-540771) 4 [3; 8]; Mo (-353925) 2 [2; 9]; Mo (-1126125) 4 [1; 10]; Mo 218243025 2 [13]]];
  [[Mo (-41) 1152 [1; 1; 1; 1]; Mo 631 112 [2; 2; 2]; Mo 2255 56 [1; 2; 3]; Mo 1243 48 [1; 1; 4]; Mo (-43925) 24 [4; 4]; Mo (-15825) 4 [3; 5]; Mo (-19635) 4 [2; 6]; Mo (-7579) 1 [1; 7]; Mo 3464175 2 [10]]; [Mo 529 480 [1; 1; 1; 2]; Mo (-3285) 16 [2; 2; 3]; Mo (-1915) 8 [1; 3; 3]; Mo (-2079) 4 [1; 2; 4]; Mo (-5565) 16 [1; 1; 5]; Mo 121275 2 [4; 5]; Mo 136125 2 [3; 6]; Mo 346203 4 [2; 7]; Mo 132990 1 [1; 8]; Mo (-72747675) 2 [11]]; [Mo (-1149) 160 [1; 1; 2; 2]; Mo (-65) 12 [1; 1; 1; 3]; Mo 146295 112 [2; 3; 3]; Mo 9903 7 [2; 2; 4]; Mo 22884 7 [1; 3; 4]; Mo 29819 8 [1; 2; 5]; Mo 5115 2 [1; 1; 6]; Mo (-2072175) 8 [5; 5]; Mo (-2171925) 4 [4; 6]; Mo (-2502621) 4 [3; 7]; Mo (-3228225) 4 [2; 8]; Mo (-1237665) 1 [1; 9]; Mo 800224425 2 [12]]; [Mo (-1) 576 [1; 1; 1; 1; 1]; Mo 1203 80 [1; 2; 2; 2]; Mo 8219 160 [1; 1; 2; 3]; Mo 2965 144 [1; 1; 1; 4]; Mo (-31205) 16 [3; 3; 3]; Mo (-101033) 8 [2; 3; 4]; Mo (-188335) 24 [1; 4; 4]; Mo (-57267) 8 [2; 2; 5]; Mo (-131915) 8 [1; 3; 5]; Mo (-77583) 4 [1; 2; 6]; Mo (-27071) 2 [1; 1; 7]; Mo 3205125 1 [5; 6]; Mo 6929505 2 [4; 7]; Mo 16265535 4 [3; 8]; Mo 21160425 4 [2; 9]; Mo 8107385 1 [1; 10]; Mo (-6135053925) 2 [13]]; [Mo 5 256 [1; 1; 1; 1; 2]; Mo (-1215) 128 [2; 2; 2; 2]; Mo (-20833) 160 [1; 2; 2; 3]; Mo (-4763) 64 [1; 1; 3; 3]; Mo (-25223) 160 [1; 1; 2; 4]; Mo (-6295) 96 [1; 1; 1; 5]; Mo 2502887 112 [3; 3; 4]; Mo 2692875 112 [2; 4; 4]; Mo 2824263 56 [2; 3; 5]; Mo 124827 2 [1; 4; 5]; Mo 235581 8 [2; 2; 6]; Mo 542105 8 [1; 3; 6]; Mo 81378 1 [1; 2; 7]; Mo 229845 4 [1; 1; 8]; Mo (-61642875) 8 [6; 6]; Mo (-31849695) 2 [5; 7]; Mo (-35177835) 2 [4; 8]; Mo (-41825355) 2 [3; 9]; Mo (-27348750) 1 [2; 10]; Mo (-41898285) 1 [1; 11]]; [Mo (-13) 192 [1; 1; 1; 2; 2]; Mo (-35) 768 [1; 1; 1; 1; 3]; Mo 7503 80 [2; 2; 2; 3]; Mo 51509 160 [1; 2; 3; 3]; Mo 54699 160 [1; 2; 2; 4]; Mo 12519 32 [1; 1; 3; 4]; Mo 34309 80 [1; 1; 2; 5]; Mo 17549 96 [1; 1; 1; 6]; Mo (-1146735) 16 [3; 4; 4]; Mo (-1200795) 16 [3; 3; 5]; Mo (-322301) 2 [2; 4; 5]; Mo (-832783) 8 [1; 5; 5]; Mo (-174402) 1 [2; 3; 6]; Mo (-860799) 4 [1; 4; 6]; Mo (-831807) 8 [2; 2; 7]; Mo (-1912473) 8 [1; 3; 7]; Mo (-582549) 2 [1; 2; 8]; Mo (-829257) 4 [1; 1; 9]; Mo 253982421 4 [6; 7]; Mo 134351085 2 [5; 8]; Mo 301430415 4 [4; 9]; Mo 361704915 4 [3; 10]; Mo 118657110 1 [2; 11]; Mo 181661337 1 [1; 12]]];
  [[Mo (-137) 80 [1; 2; 2]; Mo (-91) 48 [1; 1; 3]; Mo 525 2 [3; 4]; Mo 315 1 [2; 5]; Mo 891 2 [1; 6]; Mo (-182325) 2 [9]]; [Mo (-1) 48 [1; 1; 1; 1]; Mo 411 80 [2; 2; 2]; Mo 36 1 [1; 2; 3]; Mo 1057 48 [1; 1; 4]; Mo (-3675) 2 [4; 4]; Mo (-7875) 2 [3; 5]; Mo (-9603) 2 [2; 6]; Mo (-14157) 2 [1; 7]; Mo 3464175 2 [10]]; [Mo 1 3 [1; 1; 1; 2]; Mo (-6897) 80 [2; 2; 3]; Mo (-1649) 16 [1; 3; 3]; Mo (-437) 2 [1; 2; 4]; Mo (-6895) 48 [1; 1; 5]; Mo 57225 2 [4; 5]; Mo 63621 2 [3; 6]; Mo 78903 2 [2; 7]; Mo 119691 2 [1; 8]; Mo (-17320875) 1 [11]]; [Mo (-11) 8 [1; 1; 2; 2]; Mo (-9) 8 [1; 1; 1; 3]; Mo 5511 16 [2; 3; 3]; Mo 5911 16 [2; 2; 4]; Mo 21367 24 [1; 3; 4]; Mo 987 1 [1; 2; 5]; Mo 10927 16 [1; 1; 6]; Mo (-77175) 1 [5; 5]; Mo (-322335) 2 [4; 6]; Mo (-366597) 2 [3; 7]; Mo (-462033) 2 [2; 8]; Mo (-714285) 2 [1; 9]; Mo 121246125 1 [12]]; [Mo 1 768 [1; 1; 1; 1; 1]; Mo 2 1 [1; 2; 2; 2]; Mo 29 4 [1; 1; 2; 3]; Mo 13 4 [1; 1; 1; 4]; Mo (-2901) 8 [3; 3; 3]; Mo (-18843) 8 [2; 3; 4]; Mo (-73655) 48 [1; 4; 4]; Mo (-10569) 8 [2; 2; 5]; Mo (-25445) 8 [1; 3; 5]; Mo (-29281) 8 [1; 2; 6]; Mo (-5243) 2 [1; 1; 7]; Mo 1358415 2 [5; 6]; Mo 1458729 2 [4; 7]; Mo 1685871 2 [3; 8]; Mo 2155725 2 [2; 9]; Mo 1685970 1 [1; 10]; Mo (-1333707375) 2 [13]]; [Mo (-7) 768 [1; 1; 1; 1; 2]; Mo (-15) 16 [2; 2; 2; 2]; Mo (-107) 8 [1; 2; 2; 3]; Mo (-127) 16 [1; 1; 3; 3]; Mo (-141) 8 [1; 1; 2; 4]; Mo (-33) 4 [1; 1; 1; 5]; Mo 25117 8 [3; 3; 4]; Mo 54715 16 [2; 4; 4]; Mo 28473 4 [2; 3; 5]; Mo 222607 24 [1; 4; 5]; Mo 82593 20 [2; 2; 6]; Mo 19761 2 [1; 3; 6]; Mo 234591 20 [1; 2; 7]; Mo 17171 2 [1; 1; 8]; Mo (-2488311) 2 [6; 6]; Mo (-5128749) 2 [5; 7]; Mo (-5613795) 2 [4; 8]; Mo (-6570135) 2 [3; 9]; Mo (-4253535) 1 [2; 10]; Mo (-6694974) 1 [1; 11]]]];
 [[[Mo (-1) 64 [1; 1; 1; 1]; Mo 631 280 [2; 2; 2]; Mo 229 14 [1; 2; 3]; Mo 257 24 [1; 1; 4]; Mo (-8785) 12 [4; 4]; Mo (-3165) 2 [3; 5]; Mo (-3927) 2 [2; 6]; Mo (-6149) 2 [1; 7]; Mo 692835 1 [10]]; [Mo 47 96 [1; 1; 1; 2]; Mo (-663) 8 [2; 2; 3]; Mo (-10935) 112 [1; 3; 3]; Mo (-1705) 8 [1; 2; 4]; Mo (-291) 2 [1; 1; 5]; Mo 24255 1 [4; 5]; Mo 27225 1 [3; 6]; Mo 34749 1 [2; 7]; Mo 216645 4 [1; 8]; Mo (-14549535) 1 [11]]; [Mo (-767) 240 [1; 1; 2; 2]; Mo (-235) 96 [1; 1; 1; 3]; Mo 59177 112 [2; 3; 3]; Mo 32237 56 [2; 2; 4]; Mo 37523 28 [1; 3; 4]; Mo 12337 8 [1; 2; 5]; Mo 1080 1 [1; 1; 6]; Mo (-414435) 4 [5; 5]; Mo (-434385) 2 [4; 6]; Mo (-501039) 2 [3; 7]; Mo (-1300299) 4 [2; 8]; Mo (-2022735) 4 [1; 9]; Mo 160044885 1 [12]]; [Mo (-1) 384 [1; 1; 1; 1; 1]; Mo 1071 160 [1; 2; 2; 2]; Mo 369 16 [1; 1; 2; 3]; Mo 227 24 [1; 1; 1; 4]; Mo (-88285) 112 [3; 3; 3]; Mo (-41055) 8 [2; 3; 4]; Mo (-154745) 48 [1; 4; 4]; Mo (-11739) 4 [2; 2; 5]; Mo (-27189) 4 [1; 3; 5]; Mo (-64713) 8 [1; 2; 6]; Mo (-46079) 8 [1; 1; 7]; Mo 1282050 1 [5; 6]; Mo 1386330 1 [4; 7]; Mo 6522945 4 [3; 8]; Mo 8547825 4 [2; 9]; Mo 13285415 4 [1; 10]; Mo (-1227010785) 1 [13]]; [Mo 5 192 [1; 1; 1; 1; 2]; Mo (-1351) 320 [2; 2; 2; 2]; Mo (-9321) 160 [1; 2; 2; 3]; Mo (-3211) 96 [1; 1; 3; 3]; Mo (-2291) 32 [1; 1; 2; 4]; Mo (-733) 24 [1; 1; 1; 5]; Mo 1014201 112 [3; 3; 4]; Mo 1096225 112 [2; 4; 4]; Mo 1153739 56 [2; 3; 5]; Mo 205783 8 [1; 4; 5]; Mo 97263 8 [2; 2; 6]; Mo 56185 2 [1; 3; 6]; Mo 273429 8 [1; 2; 7]; Mo 196845 8 [1; 1; 8]; Mo (-12328575) 4 [6; 6]; Mo (-12741165) 2 [5; 7]; Mo (-28169295) 4 [4; 8]; Mo (-33605715) 4 [3; 9]; Mo (-44304975) 4 [2; 10]; Mo (-68809455) 4 [1; 11]]];
  [[Mo (-7) 10 [1; 2; 2]; Mo (-19) 24 [1; 1; 3]; Mo 105 1 [3; 4]; Mo 126 1 [2; 5]; Mo 363 2 [1; 6]; Mo (-36465) 1 [9]]; [Mo (-1) 96 [1; 1; 1; 1]; Mo 21 10 [2; 2; 2]; Mo 119 8 [1; 2; 3]; Mo 28 3 [1; 1; 4]; Mo (-735) 1 [4; 4]; Mo (-1575) 1 [3; 5]; Mo (-3861) 2 [2; 6]; Mo (-11583) 4 [1; 7]; Mo 692835 1 [10]]; [Mo 1 6 [1; 1; 1; 2]; Mo (-709) 20 [2; 2; 3]; Mo (-341) 8 [1; 3; 3]; Mo (-2191) 24 [1; 2; 4]; Mo (-1477) 24 [1; 1; 5]; Mo 11445 1 [4; 5]; Mo 12744 1 [3; 6]; Mo 63723 4 [2; 7]; Mo 98241 4 [1; 8]; Mo (-6928350) 1 [11]]; [Mo (-11) 16 [1; 1; 2; 2]; Mo (-9) 16 [1; 1; 1; 3]; Mo 567 4 [2; 3; 3]; Mo 1225 8 [2; 2; 4]; Mo 2961 8 [1; 3; 4]; Mo 833 2 [1; 2; 5]; Mo 2359 8 [1; 1; 6]; Mo (-30870) 1 [5; 5]; Mo (-64500) 1 [4; 6]; Mo (-294393) 4 [3; 7]; Mo (-374517) 4 [2; 8]; Mo (-293865) 2 [1; 9]; Mo 48498450 1 [12]]; [Mo 1 1 [1; 2; 2; 2]; Mo 29 8 [1; 1; 2; 3]; Mo 13 8 [1; 1; 1; 4]; Mo (-1193) 8 [3; 3; 3]; Mo (-7787) 8 [2; 3; 4]; Mo (-3829) 6 [1; 4; 4]; Mo (-4417) 8 [2; 2; 5]; Mo (-1331) 1 [1; 3; 5]; Mo (-3115) 2 [1; 2; 6]; Mo (-9107) 8 [1; 1; 7]; Mo 543465 2 [5; 6]; Mo 1168785 4 [4; 7]; Mo 1357191 4 [3; 8]; Mo 876447 2 [2; 9]; Mo 694980 1 [1; 10]; Mo (-266741475) 1 [13]]];
  [[Mo (-23) 60 [1; 1; 1; 2]; Mo 633 8 [2; 2; 3]; Mo 755 8 [1; 3; 3]; Mo 805 4 [1; 2; 4]; Mo 1071 8 [1; 1; 5]; Mo (-24255) 1 [4; 5]; Mo (-27225) 1 [3; 6]; Mo (-68211) 2 [2; 7]; Mo (-105105) 2 [1; 8]; Mo 14549535 1 [11]]; [Mo 861 160 [1; 1; 2; 2]; Mo 401 96 [1; 1; 1; 3]; Mo (-8595) 8 [2; 3; 3]; Mo (-9261) 8 [2; 2; 4]; Mo (-10885) 4 [1; 3; 4]; Mo (-6111) 2 [1; 2; 5]; Mo (-16797) 8 [1; 1; 6]; Mo 218295 1 [5; 5]; Mo 457380 1 [4; 6]; Mo 1048905 2 [3; 7]; Mo 669240 1 [2; 8]; Mo 4120545 4 [1; 9]; Mo (-334639305) 1 [12]]; [Mo (-723) 40 [1; 2; 2; 2]; Mo (-30257) 480 [1; 1; 2; 3]; Mo (-2519) 96 [1; 1; 1; 4]; Mo 20355 8 [3; 3; 3]; Mo 65985 4 [2; 3; 4]; Mo 83195 8 [1; 4; 4]; Mo 74361 8 [2; 2; 5]; Mo 43393 2 [1; 3; 5]; Mo 25251 1 [1; 2; 6]; Mo 35475 2 [1; 1; 7]; Mo (-4255020) 1 [5; 6]; Mo (-9179775) 2 [4; 7]; Mo (-10701405) 2 [3; 8]; Mo (-27638325) 4 [2; 9]; Mo (-42554655) 4 [1; 10]; Mo 4015671660 1 [13]]; [Mo (-1) 96 [1; 1; 1; 1; 2]; Mo 2583 160 [2; 2; 2; 2]; Mo 9013 40 [1; 2; 2; 3]; Mo 1571 12 [1; 1; 3; 3]; Mo 9009 32 [1; 1; 2; 4]; Mo 11711 96 [1; 1; 1; 5]; Mo (-328145) 8 [3; 3; 4]; Mo (-354515) 8 [2; 4; 4]; Mo (-370377) 4 [2; 3; 5]; Mo (-465325) 4 [1; 4; 5]; Mo (-430407) 8 [2; 2; 6]; Mo (-250341) 2 [1; 3; 6]; Mo (-597729) 4 [1; 2; 7]; Mo (-213213) 2 [1; 1; 8]; Mo 14293125 1 [6; 6]; Mo 59026275 2 [5; 7]; Mo 64957035 2 [4; 8]; Mo 153391095 4 [3; 9]; Mo 199645875 4 [2; 10]; Mo 76904685 1 [1; 11]]; [Mo 1 16 [1; 1; 1; 2; 2]; Mo 25 384 [1; 1; 1; 1; 3]; Mo (-17061) 80 [2; 2; 2; 3]; Mo (-29751) 40 [1; 2; 3; 3]; Mo (-191941) 240 [1; 2; 2; 4]; Mo (-14859) 16 [1; 1; 3; 4]; Mo (-99943) 96 [1; 1; 2; 5]; Mo (-44429) 96 [1; 1; 1; 6]; Mo 1385345 8 [3; 4; 4]; Mo 1448901 8 [3; 3; 5]; Mo 1563639 4 [2; 4; 5]; Mo 256060 1 [1; 5; 5]; Mo 420771 1 [2; 3; 6]; Mo 527137 1 [1; 4; 6]; Mo 500133 2 [2; 2; 7]; Mo 580755 1 [1; 3; 7]; Mo 2824899 4 [1; 2; 8]; Mo 4075071 8 [1; 1; 9]; Mo (-153894510) 1 [6; 7]; Mo (-162501570) 1 [5; 8]; Mo (-725805795) 4 [4; 9]; Mo (-865398105) 4 [3; 10]; Mo (-283114260) 1 [2; 11]; Mo (-436486050) 1 [1; 12]]];
  [[Mo 1 192 [1; 1; 1; 1]; Mo (-109) 56 [2; 2; 2]; Mo (-375) 28 [1; 2; 3]; Mo (-191) 24 [1; 1; 4]; Mo 8855 12 [4; 4]; Mo 3135 2 [3; 5]; Mo 3795 2 [2; 6]; Mo 2717 1 [1; 7]; Mo (-692835) 1 [10]]; [Mo (-19) 96 [1; 1; 1; 2]; Mo 555 8 [2; 2; 3]; Mo 9225 112 [1; 3; 3]; Mo 1389 8 [1; 2; 4]; Mo 447 4 [1; 1; 5]; Mo (-24255) 1 [4; 5]; Mo (-26730) 1 [3; 6]; Mo (-65637) 2 [2; 7]; Mo (-195195) 4 [1; 8]; Mo 14549535 1 [11]]; [Mo 41 30 [1; 1; 2; 2]; Mo 113 96 [1; 1; 1; 3]; Mo (-49575) 112 [2; 3; 3]; Mo (-26465) 56 [2; 2; 4]; Mo (-31959) 28 [1; 3; 4]; Mo (-10035) 8 [1; 2; 5]; Mo (-3429) 4 [1; 1; 6]; Mo 414645 4 [5; 5]; Mo 431145 2 [4; 6]; Mo 486189 2 [3; 7]; Mo 1211925 4 [2; 8]; Mo 1851135 4 [1; 9]; Mo (-160044885) 1 [12]]; [Mo (-1) 384 [1; 1; 1; 1; 1]; Mo (-459) 160 [1; 2; 2; 2]; Mo (-87) 8 [1; 1; 2; 3]; Mo (-251) 48 [1; 1; 1; 4]; Mo 73975 112 [3; 3; 3]; Mo 34209 8 [2; 3; 4]; Mo 134495 48 [1; 4; 4]; Mo 4767 2 [2; 2; 5]; Mo 23169 4 [1; 3; 5]; Mo 52803 8 [1; 2; 6]; Mo 37697 8 [1; 1; 7]; Mo (-1278585) 1 [5; 6]; Mo (-1364880) 1 [4; 7]; Mo (-6256965) 4 [3; 8]; Mo (-7912905) 4 [2; 9]; Mo (-12313015) 4 [1; 10]; Mo 1227010785 1 [13]]; [Mo 5 192 [1; 1; 1; 1; 2]; Mo 569 320 [2; 2; 2; 2]; Mo 4239 160 [1; 2; 2; 3]; Mo 1571 96 [1; 1; 3; 3]; Mo 1193 32 [1; 1; 2; 4]; Mo 113 6 [1; 1; 1; 5]; Mo (-846203) 112 [3; 3; 4]; Mo (-920223) 112 [2; 4; 4]; Mo (-955515) 56 [2; 3; 5]; Mo (-180141) 8 [1; 4; 5]; Mo (-78675) 8 [2; 2; 6]; Mo (-95523) 4 [1; 3; 6]; Mo (-224691) 8 [1; 2; 7]; Mo (-165363) 8 [1; 1; 8]; Mo 12301905 4 [6; 6]; Mo 6321645 1 [5; 7]; Mo 27497415 4 [4; 8]; Mo 31915455 4 [3; 9]; Mo 40907295 4 [2; 10]; Mo 64433655 4 [1; 11]]]];
 [[[Mo (-7) 48 [1; 1; 1; 2]; Mo 411 16 [2; 2; 3]; Mo 865 28 [1; 3; 3]; Mo 533 8 [1; 2; 4]; Mo 729 16 [1; 1; 5]; Mo (-15435) 2 [4; 5]; Mo (-17325) 2 [3; 6]; Mo (-21879) 2 [2; 7]; Mo (-17160) 1 [1; 8]; Mo 9258795 2 [11]]; [Mo 163 80 [1; 1; 2; 2]; Mo 51 32 [1; 1; 1; 3]; Mo (-19575) 56 [2; 3; 3]; Mo (-6075) 16 [2; 2; 4]; Mo (-7175) 8 [1; 3; 4]; Mo (-8181) 8 [1; 2; 5]; Mo (-11517) 16 [1; 1; 6]; Mo 138915 2 [5; 5]; Mo 145530 1 [4; 6]; Mo 167310 1 [3; 7]; Mo 431145 2 [2; 8]; Mo 1349205 4 [1; 9]; Mo (-212952285) 2 [12]]; [Mo 1 384 [1; 1; 1; 1; 1]; Mo (-547) 80 [1; 2; 2; 2]; Mo (-1147) 48 [1; 1; 2; 3]; Mo (-161) 16 [1; 1; 1; 4]; Mo 92685 112 [3; 3; 3]; Mo 43173 8 [2; 3; 4]; Mo 27455 8 [1; 4; 4]; Mo 49245 16 [2; 2; 5]; Mo 28817 4 [1; 3; 5]; Mo 68205 8 [1; 2; 6]; Mo 48939 8 [1; 1; 7]; Mo (-1353870) 1 [5; 6]; Mo (-1461735) 1 [4; 7]; Mo (-1711710) 1 [3; 8]; Mo (-8933925) 4 [2; 9]; Mo (-13966095) 4 [1; 10]; Mo 1277713710 1 [13]]; [Mo (-5) 128 [1; 1; 1; 1; 2]; Mo 489 80 [2; 2; 2; 2]; Mo 13647 160 [1; 2; 2; 3]; Mo 2377 48 [1; 1; 3; 3]; Mo 10285 96 [1; 1; 2; 4]; Mo 1505 32 [1; 1; 1; 5]; Mo (-1498825) 112 [3; 3; 4]; Mo (-58075) 4 [2; 4; 4]; Mo (-30492) 1 [2; 3; 5]; Mo (-308285) 8 [1; 4; 5]; Mo (-287433) 16 [2; 2; 6]; Mo (-334887) 8 [1; 3; 6]; Mo (-406527) 8 [1; 2; 7]; Mo (-295581) 8 [1; 1; 8]; Mo 9095625 2 [6; 6]; Mo 9393615 1 [5; 7]; Mo 10358205 1 [4; 8]; Mo 49204155 4 [3; 9]; Mo 64725375 4 [2; 10]; Mo 50576955 2 [1; 11]]];
  [[Mo 1 384 [1; 1; 1; 1]; Mo (-13) 20 [2; 2; 2]; Mo (-9) 2 [1; 2; 3]; Mo (-133) 48 [1; 1; 4]; Mo 5635 24 [4; 4]; Mo 1995 4 [3; 5]; Mo 1221 2 [2; 6]; Mo 3575 4 [1; 7]; Mo (-440895) 2 [10]]; [Mo (-3) 32 [1; 1; 1; 2]; Mo 93 4 [2; 2; 3]; Mo 3095 112 [1; 3; 3]; Mo 473 8 [1; 2; 4]; Mo 627 16 [1; 1; 5]; Mo (-15435) 2 [4; 5]; Mo (-34155) 4 [3; 6]; Mo (-42471) 4 [2; 7]; Mo (-32175) 2 [1; 8]; Mo 9258795 2 [11]]; [Mo 41 64 [1; 1; 2; 2]; Mo 17 32 [1; 1; 1; 3]; Mo (-16619) 112 [2; 3; 3]; Mo (-2555) 16 [2; 2; 4]; Mo (-3081) 8 [1; 3; 4]; Mo (-3453) 8 [1; 2; 5]; Mo (-4833) 16 [1; 1; 6]; Mo 263865 8 [5; 5]; Mo 137385 2 [4; 6]; Mo 155925 2 [3; 7]; Mo 196911 2 [2; 8]; Mo 611325 4 [1; 9]; Mo (-101846745) 2 [12]]; [Mo (-43) 32 [1; 2; 2; 2]; Mo (-159) 32 [1; 1; 2; 3]; Mo (-73) 32 [1; 1; 1; 4]; Mo 24795 112 [3; 3; 3]; Mo 11513 8 [2; 3; 4]; Mo 45335 48 [1; 4; 4]; Mo 12999 16 [2; 2; 5]; Mo 1969 1 [1; 3; 5]; Mo 18315 8 [1; 2; 6]; Mo 26653 16 [1; 1; 7]; Mo (-1628235) 4 [5; 6]; Mo (-1743555) 4 [4; 7]; Mo (-2014155) 4 [3; 8]; Mo (-2580435) 4 [2; 9]; Mo (-4071925) 4 [1; 10]; Mo 780825045 2 [13]]];
  [[Mo (-477) 320 [1; 1; 2; 2]; Mo (-115) 96 [1; 1; 1; 3]; Mo 9255 28 [2; 3; 3]; Mo 5667 16 [2; 2; 4]; Mo 3395 4 [1; 3; 4]; Mo 7533 8 [1; 2; 5]; Mo 10395 16 [1; 1; 6]; Mo (-6118875) 88 [5; 5]; Mo (-581385) 4 [4; 6]; Mo (-332085) 2 [3; 7]; Mo (-419445) 2 [2; 8]; Mo (-324870) 1 [1; 9]; Mo 212952285 2 [12]]; [Mo 1 768 [1; 1; 1; 1; 1]; Mo 2395 224 [1; 2; 2; 2]; Mo 4271 112 [1; 1; 2; 3]; Mo 793 48 [1; 1; 1; 4]; Mo (-46275) 28 [3; 3; 3]; Mo (-85725) 8 [2; 3; 4]; Mo (-329105) 48 [1; 4; 4]; Mo (-96201) 16 [2; 2; 5]; Mo (-56985) 4 [1; 3; 5]; Mo (-32901) 2 [1; 2; 6]; Mo (-186329) 16 [1; 1; 7]; Mo 2837835 1 [5; 6]; Mo 12207195 4 [4; 7]; Mo 3539250 1 [3; 8]; Mo 9079785 2 [2; 9]; Mo 28154295 4 [1; 10]; Mo (-5323807125) 2 [13]]; [Mo (-11) 768 [1; 1; 1; 1; 2]; Mo (-33967) 2240 [2; 2; 2; 2]; Mo (-241559) 1120 [1; 2; 2; 3]; Mo (-8155) 64 [1; 1; 3; 3]; Mo (-1669) 6 [1; 1; 2; 4]; Mo (-1505) 12 [1; 1; 1; 5]; Mo 4708785 112 [3; 3; 4]; Mo 2186915 48 [2; 4; 4]; Mo 759813 8 [2; 3; 5]; Mo 969025 8 [1; 4; 5]; Mo 220215 4 [2; 2; 6]; Mo 129645 1 [1; 3; 6]; Mo 1233199 8 [1; 2; 7]; Mo 1778205 16 [1; 1; 8]; Mo (-119632275) 8 [6; 6]; Mo (-123332055) 4 [5; 7]; Mo (-135227235) 4 [4; 8]; Mo (-79401465) 2 [3; 9]; Mo (-205884705) 4 [2; 10]; Mo (-319648875) 4 [1; 11]]; [Mo 101 1920 [1; 1; 1; 2; 2]; Mo (-13) 768 [1; 1; 1; 1; 3]; Mo 31973 112 [2; 2; 2; 3]; Mo 226629 224 [1; 2; 3; 3]; Mo 123373 112 [1; 2; 2; 4]; Mo 871681 672 [1; 1; 3; 4]; Mo 23771 16 [1; 1; 2; 5]; Mo 5491 8 [1; 1; 1; 6]; Mo (-11931455) 48 [3; 4; 4]; Mo (-4156665) 16 [3; 3; 5]; Mo (-4506075) 8 [2; 4; 5]; Mo (-5986365) 16 [1; 5; 5]; Mo (-4835679) 8 [2; 3; 6]; Mo (-6148335) 8 [1; 4; 6]; Mo (-718047) 2 [2; 2; 7]; Mo (-6740239) 8 [1; 3; 7]; Mo (-8190039) 8 [1; 2; 8]; Mo (-11966955) 16 [1; 1; 9]; Mo 223918695 1 [6; 7]; Mo 943557615 4 [5; 8]; Mo 1049344725 4 [4; 9]; Mo 1244991345 4 [3; 10]; Mo 1626335685 4 [2; 11]; Mo 2528532825 4 [1; 12]]];
  [[Mo 1 24 [1; 1; 1; 2]; Mo (-333) 16 [2; 2; 3]; Mo (-195) 8 [1; 3; 3]; Mo (-413) 8 [1; 2; 4]; Mo (-525) 16 [1; 1; 5]; Mo 15435 2 [4; 5]; Mo 8415 1 [3; 6]; Mo 10296 1 [2; 7]; Mo 15015 1 [1; 8]; Mo (-9258795) 2 [11]]; [Mo (-13) 20 [1; 1; 2; 2]; Mo (-19) 32 [1; 1; 1; 3]; Mo 1125 4 [2; 3; 3]; Mo 4809 16 [2; 2; 4]; Mo 5775 8 [1; 3; 4]; Mo 6363 8 [1; 2; 5]; Mo 8613 16 [1; 1; 6]; Mo (-138915) 2 [5; 5]; Mo (-287595) 2 [4; 6]; Mo (-160875) 1 [3; 7]; Mo (-199485) 1 [2; 8]; Mo (-1203345) 4 [1; 9]; Mo 212952285 2 [12]]; [Mo 1 384 [1; 1; 1; 1; 1]; Mo 89 40 [1; 2; 2; 2]; Mo 425 48 [1; 1; 2; 3]; Mo 73 16 [1; 1; 1; 4]; Mo (-10665) 16 [3; 3; 3]; Mo (-34493) 8 [2; 3; 4]; Mo (-11305) 4 [1; 4; 4]; Mo (-38493) 16 [2; 2; 5]; Mo (-23415) 4 [1; 3; 5]; Mo (-53367) 8 [1; 2; 6]; Mo (-37917) 8 [1; 1; 7]; Mo 1346940 1 [5; 6]; Mo 1429560 1 [4; 7]; Mo 1628055 1 [3; 8]; Mo 8187465 4 [2; 9]; Mo 12653355 4 [1; 10]; Mo (-1277713710) 1 [13]]; [Mo (-5) 128 [1; 1; 1; 1; 2]; Mo (-39) 20 [2; 2; 2; 2]; Mo (-4863) 160 [1; 2; 2; 3]; Mo (-469) 24 [1; 1; 3; 3]; Mo (-4385) 96 [1; 1; 2; 4]; Mo (-791) 32 [1; 1; 1; 5]; Mo 171625 16 [3; 3; 4]; Mo 93205 8 [2; 4; 4]; Mo 48447 2 [2; 3; 5]; Mo 257145 8 [1; 4; 5]; Mo 223533 16 [2; 2; 6]; Mo 273273 8 [1; 3; 6]; Mo 320859 8 [1; 2; 7]; Mo 236379 8 [1; 1; 8]; Mo (-9054045) 2 [6; 6]; Mo (-18562005) 2 [5; 7]; Mo (-10034310) 1 [4; 8]; Mo (-46334145) 4 [3; 9]; Mo (-59036835) 4 [2; 10]; Mo (-46419945) 2 [1; 11]]]];
 [[[Mo (-61) 120 [1; 1; 2; 2]; Mo (-13) 32 [1; 1; 1; 3]; Mo 10225 112 [2; 3; 3]; Mo 3943 40 [2; 2; 4]; Mo 1421 6 [1; 3; 4]; Mo 2145 8 [1; 2; 5]; Mo 759 4 [1; 1; 6]; Mo (-407925) 22 [5; 5]; Mo (-38759) 1 [4; 6]; Mo (-88985) 2 [3; 7]; Mo (-227565) 4 [2; 8]; Mo (-358683) 4 [1; 9]; Mo 28393638 1 [12]]; [Mo (-1) 768 [1; 1; 1; 1; 1]; Mo 29 8 [1; 2; 2; 2]; Mo 1235 96 [1; 1; 2; 3]; Mo 133 24 [1; 1; 1; 4]; Mo (-51125) 112 [3; 3; 3]; Mo (-23795) 8 [2; 3; 4]; Mo (-30625) 16 [1; 4; 4]; Mo (-33831) 20 [2; 2; 5]; Mo (-16041) 4 [1; 3; 5]; Mo (-37785) 8 [1; 2; 6]; Mo (-27313) 8 [1; 1; 7]; Mo 756756 1 [5; 6]; Mo 1630629 2 [4; 7]; Mo 3807375 4 [3; 8]; Mo 2472327 2 [2; 9]; Mo 3892473 2 [1; 10]; Mo (-709840950) 1 [13]]; [Mo 25 768 [1; 1; 1; 1; 2]; Mo (-103) 20 [2; 2; 2; 2]; Mo (-11631) 160 [1; 2; 2; 3]; Mo (-57403) 1344 [1; 1; 3; 3]; Mo (-4469) 48 [1; 1; 2; 4]; Mo (-1339) 32 [1; 1; 1; 5]; Mo 1304287 112 [3; 3; 4]; Mo 151925 12 [2; 4; 4]; Mo 53095 2 [2; 3; 5]; Mo 814865 24 [1; 4; 5]; Mo 15627 1 [2; 2; 6]; Mo 36777 1 [1; 3; 6]; Mo 89089 2 [1; 2; 7]; Mo 522951 16 [1; 1; 8]; Mo (-7975485) 2 [6; 6]; Mo (-8228143) 1 [5; 7]; Mo (-36208601) 4 [4; 8]; Mo (-42851523) 4 [3; 9]; Mo (-56232345) 4 [2; 10]; Mo (-88519119) 4 [1; 11]]];
  [[Mo 1 48 [1; 1; 1; 2]; Mo (-6) 1 [2; 2; 3]; Mo (-785) 112 [1; 3; 3]; Mo (-181) 12 [1; 2; 4]; Mo (-79) 8 [1; 1; 5]; Mo 2058 1 [4; 5]; Mo 4521 2 [3; 6]; Mo 56199 20 [2; 7]; Mo 16731 4 [1; 8]; Mo (-1234506) 1 [11]]; [Mo (-5) 16 [1; 1; 2; 2]; Mo (-25) 96 [1; 1; 1; 3]; Mo 9075 112 [2; 3; 3]; Mo 349 4 [2; 2; 4]; Mo 5005 24 [1; 3; 4]; Mo 1875 8 [1; 2; 5]; Mo 649 4 [1; 1; 6]; Mo (-18522) 1 [5; 5]; Mo (-76923) 2 [4; 6]; Mo (-173745) 4 [3; 7]; Mo (-109395) 2 [2; 8]; Mo (-167739) 2 [1; 9]; Mo 28393638 1 [12]]; [Mo 17 16 [1; 2; 2; 2]; Mo 127 32 [1; 1; 2; 3]; Mo 59 32 [1; 1; 1; 4]; Mo (-10755) 56 [3; 3; 3]; Mo (-9969) 8 [2; 3; 4]; Mo (-13035) 16 [1; 4; 4]; Mo (-1407) 2 [2; 2; 5]; Mo (-13613) 8 [1; 3; 5]; Mo (-15825) 8 [1; 2; 6]; Mo (-22869) 16 [1; 1; 7]; Mo 359646 1 [5; 6]; Mo 1534731 4 [4; 7]; Mo 1766193 4 [3; 8]; Mo 563277 1 [2; 9]; Mo 882453 1 [1; 10]; Mo (-340723656) 1 [13]]];
  [[Mo (-7) 11520 [1; 1; 1; 1; 1]; Mo (-1399) 560 [1; 2; 2; 2]; Mo (-2039) 224 [1; 1; 2; 3]; Mo (-1181) 288 [1; 1; 1; 4]; Mo 11975 28 [3; 3; 3]; Mo 11065 4 [2; 3; 4]; Mo 86065 48 [1; 4; 4]; Mo 30933 20 [2; 2; 5]; Mo 29781 8 [1; 3; 5]; Mo 170907 40 [1; 2; 6]; Mo 30459 10 [1; 1; 7]; Mo (-756756) 1 [5; 6]; Mo (-810810) 1 [4; 7]; Mo (-937365) 1 [3; 8]; Mo (-4776915) 4 [2; 9]; Mo (-7461623) 4 [1; 10]; Mo 709840950 1 [13]]; [Mo 5 256 [1; 1; 1; 1; 2]; Mo 4197 560 [2; 2; 2; 2]; Mo 24303 224 [1; 2; 2; 3]; Mo 2085 32 [1; 1; 3; 3]; Mo 2305 16 [1; 1; 2; 4]; Mo 539 8 [1; 1; 1; 5]; Mo (-45625) 2 [3; 3; 4]; Mo (-395885) 16 [2; 4; 4]; Mo (-412245) 8 [2; 3; 5]; Mo (-133203) 2 [1; 4; 5]; Mo (-1193247) 40 [2; 2; 6]; Mo (-71148) 1 [1; 3; 6]; Mo (-3372369) 40 [1; 2; 7]; Mo (-61347) 1 [1; 1; 8]; Mo 8324316 1 [6; 6]; Mo 17135118 1 [5; 7]; Mo 18723705 1 [4; 8]; Mo 87625395 4 [3; 9]; Mo 56573127 2 [2; 10]; Mo 44265858 1 [1; 11]]; [Mo (-293) 1920 [1; 1; 1; 2; 2]; Mo (-5) 96 [1; 1; 1; 1; 3]; Mo (-63207) 280 [2; 2; 2; 3]; Mo (-12997) 16 [1; 2; 3; 3]; Mo (-100133) 112 [1; 2; 2; 4]; Mo (-14939) 14 [1; 1; 3; 4]; Mo (-39821) 32 [1; 1; 2; 5]; Mo (-19039) 32 [1; 1; 1; 6]; Mo 1695515 8 [3; 4; 4]; Mo 885633 4 [3; 3; 5]; Mo 1925581 4 [2; 4; 5]; Mo 5182191 16 [1; 5; 5]; Mo 5160213 10 [2; 3; 6]; Mo 5319285 8 [1; 4; 6]; Mo 2452923 8 [2; 2; 7]; Mo 29091117 40 [1; 3; 7]; Mo 35316567 40 [1; 2; 8]; Mo 10435425 16 [1; 1; 9]; Mo (-194648454) 1 [6; 7]; Mo (-204570366) 1 [5; 8]; Mo (-907028265) 4 [4; 9]; Mo (-1072244043) 4 [3; 10]; Mo (-349516362) 1 [2; 11]; Mo (-548032485) 1 [1; 12]]];
  [[Mo 7 60 [1; 1; 2; 2]; Mo 11 96 [1; 1; 1; 3]; Mo (-7925) 112 [2; 3; 3]; Mo (-3037) 40 [2; 2; 4]; Mo (-721) 4 [1; 3; 4]; Mo (-1605) 8 [1; 2; 5]; Mo (-539) 4 [1; 1; 6]; Mo 407043 22 [5; 5]; Mo 38164 1 [4; 6]; Mo 42380 1 [3; 7]; Mo 210015 4 [2; 8]; Mo 312273 4 [1; 9]; Mo (-28393638) 1 [12]]; [Mo (-1) 768 [1; 1; 1; 1; 1]; Mo (-7) 8 [1; 2; 2; 2]; Mo (-355) 96 [1; 1; 2; 3]; Mo (-49) 24 [1; 1; 1; 4]; Mo 39625 112 [3; 3; 3]; Mo 18325 8 [2; 3; 4]; Mo 71785 48 [1; 4; 4]; Mo 6426 5 [2; 2; 5]; Mo 3111 1 [1; 3; 5]; Mo 28545 8 [1; 2; 6]; Mo 20163 8 [1; 1; 7]; Mo (-750519) 1 [5; 6]; Mo (-792792) 1 [4; 7]; Mo (-3592875) 4 [3; 8]; Mo (-2253537) 2 [2; 9]; Mo (-1725789) 1 [1; 10]; Mo 709840950 1 [13]]; [Mo 25 768 [1; 1; 1; 1; 2]; Mo 49 40 [2; 2; 2; 2]; Mo 3219 160 [1; 2; 2; 3]; Mo 18197 1344 [1; 1; 3; 3]; Mo 1555 48 [1; 1; 2; 4]; Mo 1793 96 [1; 1; 1; 5]; Mo (-1007343) 112 [3; 3; 4]; Mo (-234335) 24 [2; 4; 4]; Mo (-81445) 4 [2; 3; 5]; Mo (-216155) 8 [1; 4; 5]; Mo (-47211) 4 [2; 2; 6]; Mo (-115473) 4 [1; 3; 6]; Mo (-34012) 1 [1; 2; 7]; Mo (-399971) 16 [1; 1; 8]; Mo 7912233 2 [6; 6]; Mo 8094086 1 [5; 7]; Mo 34841521 4 [4; 8]; Mo 40067313 4 [3; 9]; Mo 50901825 4 [2; 10]; Mo 79701219 4 [1; 11]]]];
 [[[Mo 1 3840 [1; 1; 1; 1; 1]; Mo (-47) 60 [1; 2; 2; 2]; Mo (-271) 96 [1; 1; 2; 3]; Mo (-119) 96 [1; 1; 1; 4]; Mo 725 7 [3; 3; 3]; Mo 1345 2 [2; 3; 4]; Mo 62965 144 [1; 4; 4]; Mo 7623 20 [2; 2; 5]; Mo 7331 8 [1; 3; 5]; Mo 42977 40 [1; 2; 6]; Mo 11726 15 [1; 1; 7]; Mo (-174636) 1 [5; 6]; Mo (-375375) 2 [4; 7]; Mo (-218790) 1 [3; 8]; Mo (-1130415) 4 [2; 9]; Mo (-1792973) 4 [1; 10]; Mo 163809450 1 [13]]; [Mo (-11) 768 [1; 1; 1; 1; 2]; Mo 47 20 [2; 2; 2; 2]; Mo 537 16 [1; 2; 2; 3]; Mo 13415 672 [1; 1; 3; 3]; Mo 1049 24 [1; 1; 2; 4]; Mo 641 32 [1; 1; 1; 5]; Mo (-11075) 2 [3; 3; 4]; Mo (-288925) 48 [2; 4; 4]; Mo (-100905) 8 [2; 3; 5]; Mo (-32613) 2 [1; 4; 5]; Mo (-296637) 40 [2; 2; 6]; Mo (-70587) 4 [1; 3; 6]; Mo (-852709) 40 [1; 2; 7]; Mo (-63063) 4 [1; 1; 8]; Mo 1920996 1 [6; 6]; Mo 7918911 2 [5; 7]; Mo 8693685 2 [4; 8]; Mo 20529795 4 [3; 9]; Mo 6714201 1 [2; 10]; Mo 42590457 4 [1; 11]]];
  [[Mo 1 16 [1; 1; 2; 2]; Mo 5 96 [1; 1; 1; 3]; Mo (-2025) 112 [2; 3; 3]; Mo (-391) 20 [2; 2; 4]; Mo (-553) 12 [1; 3; 4]; Mo (-417) 8 [1; 2; 5]; Mo (-143) 4 [1; 1; 6]; Mo 93933 22 [5; 5]; Mo 17703 2 [4; 6]; Mo 9945 1 [3; 7]; Mo 50115 4 [2; 8]; Mo 75803 4 [1; 9]; Mo (-6552378) 1 [12]]; [Mo (-11) 24 [1; 2; 2; 2]; Mo (-55) 32 [1; 1; 2; 3]; Mo (-77) 96 [1; 1; 1; 4]; Mo 10125 112 [3; 3; 3]; Mo 4695 8 [2; 3; 4]; Mo 3430 9 [1; 4; 4]; Mo 13293 40 [2; 2; 5]; Mo 6383 8 [1; 3; 5]; Mo 7447 8 [1; 2; 6]; Mo 2002 3 [1; 1; 7]; Mo (-347193) 2 [5; 6]; Mo (-369369) 2 [4; 7]; Mo (-847275) 4 [3; 8]; Mo (-269841) 1 [2; 9]; Mo (-1675401) 4 [1; 10]; Mo 163809450 1 [13]]];
  [[Mo (-5) 768 [1; 1; 1; 1; 2]; Mo (-4281) 2800 [2; 2; 2; 2]; Mo (-25129) 1120 [1; 2; 2; 3]; Mo (-3067) 224 [1; 1; 3; 3]; Mo (-14671) 480 [1; 1; 2; 4]; Mo (-473) 32 [1; 1; 1; 5]; Mo 450385 88 [3; 3; 4]; Mo 975569 176 [2; 4; 4]; Mo 1016055 88 [2; 3; 5]; Mo 166005 11 [1; 4; 5]; Mo 267057 40 [2; 2; 6]; Mo 64527 4 [1; 3; 6]; Mo 762099 40 [1; 2; 7]; Mo 111761 8 [1; 1; 8]; Mo (-49931343) 26 [6; 6]; Mo (-3947265) 1 [5; 7]; Mo (-8599185) 2 [4; 8]; Mo (-10038585) 2 [3; 9]; Mo (-25805439) 4 [2; 10]; Mo (-40691217) 4 [1; 11]]; [Mo 109 960 [1; 1; 1; 2; 2]; Mo 41 768 [1; 1; 1; 1; 3]; Mo 21927 224 [2; 2; 2; 3]; Mo 9995 28 [1; 2; 3; 3]; Mo 63413 160 [1; 2; 2; 4]; Mo 46009 96 [1; 1; 3; 4]; Mo 45339 80 [1; 1; 2; 5]; Mo 8943 32 [1; 1; 1; 6]; Mo (-1589875) 16 [3; 4; 4]; Mo (-207585) 2 [3; 3; 5]; Mo (-903483) 4 [2; 4; 5]; Mo (-1690731) 11 [1; 5; 5]; Mo (-1937331) 8 [2; 3; 6]; Mo (-315665) 1 [1; 4; 6]; Mo (-2879019) 20 [2; 2; 7]; Mo (-2761421) 8 [1; 3; 7]; Mo (-3347643) 8 [1; 2; 8]; Mo (-2495753) 8 [1; 1; 9]; Mo 93351258 1 [6; 7]; Mo 195810615 2 [5; 8]; Mo 108228120 1 [4; 9]; Mo 510493425 4 [3; 10]; Mo 331993935 2 [2; 11]; Mo 1049472543 4 [1; 12]]];
  [[Mo 1 3840 [1; 1; 1; 1; 1]; Mo 2 15 [1; 2; 2; 2]; Mo 59 96 [1; 1; 2; 3]; Mo 35 96 [1; 1; 1; 4]; Mo (-4325) 56 [3; 3; 3]; Mo (-2005) 4 [2; 3; 4]; Mo (-46795) 144 [1; 4; 4]; Mo (-567) 2 [2; 2; 5]; Mo (-5435) 8 [1; 3; 5]; Mo (-31493) 40 [1; 2; 6]; Mo (-8294) 15 [1; 1; 7]; Mo 172557 1 [5; 6]; Mo 363363 2 [4; 7]; Mo 409695 2 [3; 8]; Mo 1028313 4 [2; 9]; Mo 1557829 4 [1; 10]; Mo (-163809450) 1 [13]]; [Mo (-11) 768 [1; 1; 1; 1; 2]; Mo (-2) 5 [2; 2; 2; 2]; Mo (-113) 16 [1; 2; 2; 3]; Mo (-3385) 672 [1; 1; 3; 3]; Mo (-295) 24 [1; 1; 2; 4]; Mo (-241) 32 [1; 1; 1; 5]; Mo 33025 8 [3; 3; 4]; Mo 215215 48 [2; 4; 4]; Mo 75075 8 [2; 3; 5]; Mo 49623 4 [1; 4; 5]; Mo 219219 40 [2; 2; 6]; Mo 53361 4 [1; 3; 6]; Mo 633061 40 [1; 2; 7]; Mo 11583 1 [1; 1; 8]; Mo (-1898127) 1 [6; 6]; Mo (-7756749) 2 [5; 7]; Mo (-4159155) 1 [4; 8]; Mo (-19071195) 4 [3; 9]; Mo (-12105717) 2 [2; 10]; Mo (-37652433) 4 [1; 11]]]];
 [[[Mo 1 384 [1; 1; 1; 1; 2]; Mo (-9) 20 [2; 2; 2; 2]; Mo (-13) 2 [1; 2; 2; 3]; Mo (-1315) 336 [1; 1; 3; 3]; Mo (-103) 12 [1; 1; 2; 4]; Mo (-4) 1 [1; 1; 1; 5]; Mo 97825 88 [3; 3; 4]; Mo 106085 88 [2; 4; 4]; Mo 111195 44 [2; 3; 5]; Mo 145089 44 [1; 4; 5]; Mo 5931 4 [2; 2; 6]; Mo 3570 1 [1; 3; 6]; Mo 17199 4 [1; 2; 7]; Mo 12805 4 [1; 1; 8]; Mo (-5095035) 13 [6; 6]; Mo (-807219) 1 [5; 7]; Mo (-1768725) 2 [4; 8]; Mo (-1042950) 1 [3; 9]; Mo (-2718045) 2 [2; 10]; Mo (-2170560) 1 [1; 11]]];
  [[Mo 1 12 [1; 2; 2; 2]; Mo 5 16 [1; 1; 2; 3]; Mo 7 48 [1; 1; 1; 4]; Mo (-125) 7 [3; 3; 3]; Mo (-465) 4 [2; 3; 4]; Mo (-2695) 36 [1; 4; 4]; Mo (-1323) 20 [2; 2; 5]; Mo (-157) 1 [1; 3; 5]; Mo (-737) 4 [1; 2; 6]; Mo (-1573) 12 [1; 1; 7]; Mo 35343 1 [5; 6]; Mo 75075 2 [4; 7]; Mo 42900 1 [3; 8]; Mo 109395 2 [2; 9]; Mo 83980 1 [1; 10]; Mo (-33430500) 1 [13]]];
  [[Mo (-7) 240 [1; 1; 1; 2; 2]; Mo (-1) 64 [1; 1; 1; 1; 3]; Mo (-2015) 112 [2; 2; 2; 3]; Mo (-7425) 112 [1; 2; 3; 3]; Mo (-5929) 80 [1; 2; 2; 4]; Mo (-4357) 48 [1; 1; 3; 4]; Mo (-8673) 80 [1; 1; 2; 5]; Mo (-55) 1 [1; 1; 1; 6]; Mo 237125 12 [3; 4; 4]; Mo 41295 2 [3; 3; 5]; Mo 89775 2 [2; 4; 5]; Mo 339381 11 [1; 5; 5]; Mo 48180 1 [2; 3; 6]; Mo 63413 1 [1; 4; 6]; Mo 114543 4 [2; 2; 7]; Mo 69420 1 [1; 3; 7]; Mo 335985 4 [1; 2; 8]; Mo 126191 2 [1; 1; 9]; Mo (-19027008) 1 [6; 7]; Mo (-19922760) 1 [5; 8]; Mo (-43940325) 2 [4; 9]; Mo (-181081875) 7 [3; 10]; Mo (-67079025) 2 [2; 11]; Mo (-53399652) 1 [1; 12]]];
  [[Mo 1 384 [1; 1; 1; 1; 2]; Mo 1 20 [2; 2; 2; 2]; Mo 1 1 [1; 2; 2; 3]; Mo 65 84 [1; 1; 3; 3]; Mo 23 12 [1; 1; 2; 4]; Mo 5 4 [1; 1; 1; 5]; Mo (-70475) 88 [3; 3; 4]; Mo (-229985) 264 [2; 4; 4]; Mo (-80535) 44 [2; 3; 5]; Mo (-105777) 44 [1; 4; 5]; Mo (-21561) 20 [2; 2; 6]; Mo (-2601) 1 [1; 3; 6]; Mo (-15574) 5 [1; 2; 7]; Mo (-4537) 2 [1; 1; 8]; Mo 5013063 13 [6; 6]; Mo 787374 1 [5; 7]; Mo 1684725 2 [4; 8]; Mo 962625 1 [3; 9]; Mo 2446725 2 [2; 10]; Mo 1885674 1 [1; 11]]]]].
(** matslise_formulas.cpp: tDelta(6, 0..16) *)
Definition tdelta_row6 : list (list hentry) := [
 [[];
  [];
  [];
  []];
 [[];
  [];
  [];
  []];
 [[];
  [];
  [];
  []];
 [[];
  [];
  [];
  []];
 [[];
  [];
  [];
  []];
 [[];
  [];
  [];
  []];
 [[];
  [];
  [];
  []];
 [[];
  [];
  [];
  []];
 [[];
  [];
  [];
  []];
 [[];
  [];
  [];
  []];
 [[];
  [];
  [];
  []];
 [[[Mo (-31) 80 [1; 2; 2]; Mo (-23) 48 [1; 1; 3]; Mo 105 2 [3; 4]; Mo 63 1 [2; 5]; Mo 99 1 [1; 6]; Mo (-36465) 2 [9]]; [Mo (-1) 96 [1; 1; 1; 1]; Mo 93 80 [2; 2; 2]; Mo 69 8 [1; 2; 3]; Mo 287 48 [1; 1; 4]; Mo (-735) 2 [4; 4]; Mo (-1575) 2 [3; 5]; Mo (-990) 1 [2; 6]; Mo (-6435) 4 [1; 7]; Mo 692835 2 [10]]; [Mo 1 6 [1; 1; 1; 2]; Mo (-1611) 80 [2; 2; 3]; Mo (-397) 16 [1; 3; 3]; Mo (-443) 8 [1; 2; 4]; Mo (-1967) 48 [1; 1; 5]; Mo 11445 2 [4; 5]; Mo 12843 2 [3; 6]; Mo 33363 4 [2; 7]; Mo 55341 4 [1; 8]; Mo (-3464175) 1 [11]]; [Mo (-11) 16 [1; 1; 2; 2]; Mo (-9) 16 [1; 1; 1; 3]; Mo 1293 16 [2; 3; 3]; Mo 1439 16 [2; 2; 4]; Mo 2641 12 [1; 3; 4]; Mo 525 2 [1; 2; 5]; Mo 3227 16 [1; 1; 6]; Mo (-15435) 1 [5; 5]; Mo (-64665) 2 [4; 6]; Mo (-149985) 4 [3; 7]; Mo (-199485) 4 [2; 8]; Mo (-83655) 1 [1; 9]; Mo 24249225 1 [12]]; [Mo (-1) 768 [1; 1; 1; 1; 1]; Mo 1 1 [1; 2; 2; 2]; Mo 29 8 [1; 1; 2; 3]; Mo 13 8 [1; 1; 1; 4]; Mo (-339) 4 [3; 3; 3]; Mo (-2259) 4 [2; 3; 4]; Mo (-18241) 48 [1; 4; 4]; Mo (-1341) 4 [2; 2; 5]; Mo (-6499) 8 [1; 3; 5]; Mo (-8099) 8 [1; 2; 6]; Mo (-6349) 8 [1; 1; 7]; Mo 135990 1 [5; 6]; Mo 588897 4 [4; 7]; Mo 699831 4 [3; 8]; Mo 236808 1 [2; 9]; Mo 398970 1 [1; 10]; Mo (-266741475) 2 [13]]; [Mo 7 768 [1; 1; 1; 1; 2]; Mo (-15) 32 [2; 2; 2; 2]; Mo (-107) 16 [1; 2; 2; 3]; Mo (-127) 32 [1; 1; 3; 3]; Mo (-141) 16 [1; 1; 2; 4]; Mo (-33) 8 [1; 1; 1; 5]; Mo 2971 4 [3; 3; 4]; Mo 13171 16 [2; 4; 4]; Mo 14055 8 [2; 3; 5]; Mo 55979 24 [1; 4; 5]; Mo 43533 40 [2; 2; 6]; Mo 20853 8 [1; 3; 6]; Mo 16737 5 [1; 2; 7]; Mo 21175 8 [1; 1; 8]; Mo (-249039) 1 [6; 6]; Mo (-2059479) 4 [5; 7]; Mo (-2285415) 4 [4; 8]; Mo (-1383525) 2 [3; 9]; Mo (-948519) 1 [2; 10]; Mo (-1597167) 1 [1; 11]]];
  [[Mo 11 240 [1; 1; 2]; Mo (-115) 56 [3; 3]; Mo (-19) 4 [2; 4]; Mo (-27) 4 [1; 5]; Mo 2145 2 [8]]; [Mo (-31) 80 [1; 2; 2]; Mo (-23) 48 [1; 1; 3]; Mo 105 2 [3; 4]; Mo 63 1 [2; 5]; Mo 99 1 [1; 6]; Mo (-36465) 2 [9]]; [Mo (-1) 192 [1; 1; 1; 1]; Mo 21 40 [2; 2; 2]; Mo 81 20 [1; 2; 3]; Mo 23 8 [1; 1; 4]; Mo (-1375) 8 [4; 4]; Mo (-1477) 4 [3; 5]; Mo (-1845) 4 [2; 6]; Mo (-3069) 4 [1; 7]; Mo 328185 2 [10]]; [Mo 5 96 [1; 1; 1; 2]; Mo (-57) 10 [2; 2; 3]; Mo (-117) 16 [1; 3; 3]; Mo (-391) 24 [1; 2; 4]; Mo (-301) 24 [1; 1; 5]; Mo 1680 1 [4; 5]; Mo 1884 1 [3; 6]; Mo 2442 1 [2; 7]; Mo 16731 4 [1; 8]; Mo (-2078505) 2 [11]]; [Mo (-7) 48 [1; 1; 2; 2]; Mo (-1) 8 [1; 1; 1; 3]; Mo 1287 80 [2; 3; 3]; Mo 1449 80 [2; 2; 4]; Mo 547 12 [1; 3; 4]; Mo 219 4 [1; 2; 5]; Mo 2107 48 [1; 1; 6]; Mo (-6415) 2 [5; 5]; Mo (-6721) 1 [4; 6]; Mo (-7776) 1 [3; 7]; Mo (-10395) 1 [2; 8]; Mo (-18018) 1 [1; 9]; Mo 10392525 2 [12]]; [Mo (-1) 3840 [1; 1; 1; 1; 1]; Mo 5 32 [1; 2; 2; 2]; Mo 55 96 [1; 1; 2; 3]; Mo 13 48 [1; 1; 1; 4]; Mo (-201) 16 [3; 3; 3]; Mo (-341) 4 [2; 3; 4]; Mo (-947) 16 [1; 4; 4]; Mo (-4119) 80 [2; 2; 5]; Mo (-1011) 8 [1; 3; 5]; Mo (-1603) 10 [1; 2; 6]; Mo (-10437) 80 [1; 1; 7]; Mo 21414 1 [5; 6]; Mo 23169 1 [4; 7]; Mo 27489 1 [3; 8]; Mo 150579 4 [2; 9]; Mo 261261 4 [1; 10]; Mo (-43648605) 2 [13]]];
  [[Mo 13 1152 [1; 1; 1; 1]; Mo (-631) 560 [2; 2; 2]; Mo (-493) 56 [1; 2; 3]; Mo (-299) 48 [1; 1; 4]; Mo 8785 24 [4; 4]; Mo 3165 4 [3; 5]; Mo 3927 4 [2; 6]; Mo 3289 2 [1; 7]; Mo (-692835) 2 [10]]; [Mo (-11) 30 [1; 1; 1; 2]; Mo 693 16 [2; 2; 3]; Mo 5995 112 [1; 3; 3]; Mo 957 8 [1; 2; 4]; Mo 1419 16 [1; 1; 5]; Mo (-24255) 2 [4; 5]; Mo (-27225) 2 [3; 6]; Mo (-70785) 4 [2; 7]; Mo (-117975) 4 [1; 8]; Mo 14549535 2 [11]]; [Mo 77 32 [1; 1; 2; 2]; Mo 185 96 [1; 1; 1; 3]; Mo (-7809) 28 [2; 3; 3]; Mo (-17487) 56 [2; 2; 4]; Mo (-21033) 28 [1; 3; 4]; Mo (-899) 1 [1; 2; 5]; Mo (-1365) 2 [1; 1; 6]; Mo 414435 8 [5; 5]; Mo 434385 4 [4; 6]; Mo 503613 4 [3; 7]; Mo 168168 1 [2; 8]; Mo 1117545 4 [1; 9]; Mo (-160044885) 2 [12]]; [Mo 7 1152 [1; 1; 1; 1; 1]; Mo (-807) 160 [1; 2; 2; 2]; Mo (-2851) 160 [1; 1; 2; 3]; Mo (-1121) 144 [1; 1; 1; 4]; Mo 11605 28 [3; 3; 3]; Mo 5533 2 [2; 3; 4]; Mo 87565 48 [1; 4; 4]; Mo 13167 8 [2; 2; 5]; Mo 31219 8 [1; 3; 5]; Mo 38973 8 [1; 2; 6]; Mo 29953 8 [1; 1; 7]; Mo (-641025) 1 [5; 6]; Mo (-1388475) 2 [4; 7]; Mo (-825825) 1 [3; 8]; Mo (-2241525) 2 [2; 9]; Mo (-7426705) 4 [1; 10]; Mo 1227010785 2 [13]]; [Mo (-15) 256 [1; 1; 1; 1; 2]; Mo 2031 640 [2; 2; 2; 2]; Mo 713 16 [1; 2; 2; 3]; Mo 1659 64 [1; 1; 3; 3]; Mo 4571 80 [1; 1; 2; 4]; Mo 2501 96 [1; 1; 1; 5]; Mo (-134929) 28 [3; 3; 4]; Mo (-74475) 14 [2; 4; 4]; Mo (-318477) 28 [2; 3; 5]; Mo (-118041) 8 [1; 4; 5]; Mo (-7026) 1 [2; 2; 6]; Mo (-132115) 8 [1; 3; 6]; Mo (-169263) 8 [1; 2; 7]; Mo (-130845) 8 [1; 1; 8]; Mo 12328575 8 [6; 6]; Mo 3186900 1 [5; 7]; Mo 14152215 4 [4; 8]; Mo 17166435 4 [3; 9]; Mo 23519925 4 [2; 10]; Mo 38835225 4 [1; 11]]; [Mo 19 96 [1; 1; 1; 2; 2]; Mo 85 768 [1; 1; 1; 1; 3]; Mo (-2541) 80 [2; 2; 2; 3]; Mo (-17701) 160 [1; 2; 3; 3]; Mo (-19319) 160 [1; 2; 2; 4]; Mo (-2229) 16 [1; 1; 3; 4]; Mo (-25957) 160 [1; 1; 2; 5]; Mo (-1813) 24 [1; 1; 1; 6]; Mo 15510 1 [3; 4; 4]; Mo 463287 28 [3; 3; 5]; Mo 290323 8 [2; 4; 5]; Mo 99133 4 [1; 5; 5]; Mo 324027 8 [2; 3; 6]; Mo 103713 2 [1; 4; 6]; Mo 1025937 40 [2; 2; 7]; Mo 59895 1 [1; 3; 7]; Mo 623865 8 [1; 2; 8]; Mo 241527 4 [1; 1; 9]; Mo (-50807295) 4 [6; 7]; Mo (-53860125) 4 [5; 8]; Mo (-15242370) 1 [4; 9]; Mo (-18758025) 1 [3; 10]; Mo (-103392861) 4 [2; 11]; Mo (-170021709) 4 [1; 12]]];
  [[Mo 31 80 [1; 2; 2]; Mo 23 48 [1; 1; 3]; Mo (-105) 2 [3; 4]; Mo (-63) 1 [2; 5]; Mo (-99) 1 [1; 6]; Mo 36465 2 [9]]; [Mo 1 96 [1; 1; 1; 1]; Mo (-93) 80 [2; 2; 2]; Mo (-69) 8 [1; 2; 3]; Mo (-287) 48 [1; 1; 4]; Mo 735 2 [4; 4]; Mo 1575 2 [3; 5]; Mo 990 1 [2; 6]; Mo 6435 4 [1; 7]; Mo (-692835) 2 [10]]; [Mo (-1) 6 [1; 1; 1; 2]; Mo 1611 80 [2; 2; 3]; Mo 397 16 [1; 3; 3]; Mo 443 8 [1; 2; 4]; Mo 1967 48 [1; 1; 5]; Mo (-11445) 2 [4; 5]; Mo (-12843) 2 [3; 6]; Mo (-33363) 4 [2; 7]; Mo (-55341) 4 [1; 8]; Mo 3464175 1 [11]]; [Mo 11 16 [1; 1; 2; 2]; Mo 9 16 [1; 1; 1; 3]; Mo (-1293) 16 [2; 3; 3]; Mo (-1439) 16 [2; 2; 4]; Mo (-2641) 12 [1; 3; 4]; Mo (-525) 2 [1; 2; 5]; Mo (-3227) 16 [1; 1; 6]; Mo 15435 1 [5; 5]; Mo 64665 2 [4; 6]; Mo 149985 4 [3; 7]; Mo 199485 4 [2; 8]; Mo 83655 1 [1; 9]; Mo (-24249225) 1 [12]]; [Mo 1 768 [1; 1; 1; 1; 1]; Mo (-1) 1 [1; 2; 2; 2]; Mo (-29) 8 [1; 1; 2; 3]; Mo (-13) 8 [1; 1; 1; 4]; Mo 339 4 [3; 3; 3]; Mo 2259 4 [2; 3; 4]; Mo 18241 48 [1; 4; 4]; Mo 1341 4 [2; 2; 5]; Mo 6499 8 [1; 3; 5]; Mo 8099 8 [1; 2; 6]; Mo 6349 8 [1; 1; 7]; Mo (-135990) 1 [5; 6]; Mo (-588897) 4 [4; 7]; Mo (-699831) 4 [3; 8]; Mo (-236808) 1 [2; 9]; Mo (-398970) 1 [1; 10]; Mo 266741475 2 [13]]; [Mo (-7) 768 [1; 1; 1; 1; 2]; Mo 15 32 [2; 2; 2; 2]; Mo 107 16 [1; 2; 2; 3]; Mo 127 32 [1; 1; 3; 3]; Mo 141 16 [1; 1; 2; 4]; Mo 33 8 [1; 1; 1; 5]; Mo (-2971) 4 [3; 3; 4]; Mo (-13171) 16 [2; 4; 4]; Mo (-14055) 8 [2; 3; 5]; Mo (-55979) 24 [1; 4; 5]; Mo (-43533) 40 [2; 2; 6]; Mo (-20853) 8 [1; 3; 6]; Mo (-16737) 5 [1; 2; 7]; Mo (-21175) 8 [1; 1; 8]; Mo 249039 1 [6; 6]; Mo 2059479 4 [5; 7]; Mo 2285415 4 [4; 8]; Mo 1383525 2 [3; 9]; Mo 948519 1 [2; 10]; Mo 1597167 1 [1; 11]]]];
 [[[Mo 13 1152 [1; 1; 1; 1]; Mo (-631) 560 [2; 2; 2]; Mo (-493) 56 [1; 2; 3]; Mo (-299) 48 [1; 1; 4]; Mo 8785 24 [4; 4]; Mo 3165 4 [3; 5]; Mo 3927 4 [2; 6]; Mo 3289 2 [1; 7]; Mo (-692835) 2 [10]]; [Mo (-11) 30 [1; 1; 1; 2]; Mo 693 16 [2; 2; 3]; Mo 5995 112 [1; 3; 3]; Mo 957 8 [1; 2; 4]; Mo 1419 16 [1; 1; 5]; Mo (-24255) 2 [4; 5]; Mo (-27225) 2 [3; 6]; Mo (-70785) 4 [2; 7]; Mo (-117975) 4 [1; 8]; Mo 14549535 2 [11]]; [Mo 77 32 [1; 1; 2; 2]; Mo 185 96 [1; 1; 1; 3]; Mo (-7809) 28 [2; 3; 3]; Mo (-17487) 56 [2; 2; 4]; Mo (-21033) 28 [1; 3; 4]; Mo (-899) 1 [1; 2; 5]; Mo (-1365) 2 [1; 1; 6]; Mo 414435 8 [5; 5]; Mo 434385 4 [4; 6]; Mo 503613 4 [3; 7]; Mo 168168 1 [2; 8]; Mo 1117545 4 [1; 9]; Mo (-160044885) 2 [12]]; [Mo 7 1152 [1; 1; 1; 1; 1]; Mo (-807) 160 [1; 2; 2; 2]; Mo (-2851) 160 [1; 1; 2; 3]; Mo (-1121) 144 [1; 1; 1; 4]; Mo 11605 28 [3; 3; 3]; Mo 5533 2 [2; 3; 4]; Mo 87565 48 [1; 4; 4]; Mo 13167 8 [2; 2; 5]; Mo 31219 8 [1; 3; 5]; Mo 38973 8 [1; 2; 6]; Mo 29953 8 [1; 1; 7]; Mo (-641025) 1 [5; 6]; Mo (-1388475) 2 [4; 7]; Mo (-825825) 1 [3; 8]; Mo (-2241525) 2 [2; 9]; Mo (-7426705) 4 [1; 10]; Mo 1227010785 2 [13]]; [Mo (-15) 256 [1; 1; 1; 1; 2]; Mo 2031 640 [2; 2; 2; 2]; Mo 713 16 [1; 2; 2; 3]; Mo 1659 64 [1; 1; 3; 3]; Mo 4571 80 [1; 1; 2; 4]; Mo 2501 96 [1; 1; 1; 5]; Mo (-134929) 28 [3; 3; 4]; Mo (-74475) 14 [2; 4; 4]; Mo (-318477) 28 [2; 3; 5]; Mo (-118041) 8 [1; 4; 5]; Mo (-7026) 1 [2; 2; 6]; Mo (-132115) 8 [1; 3; 6]; Mo (-169263) 8 [1; 2; 7]; Mo (-130845) 8 [1; 1; 8]; Mo 12328575 8 [6; 6]; Mo 3186900 1 [5; 7]; Mo 14152215 4 [4; 8]; Mo 17166435 4 [3; 9]; Mo 23519925 4 [2; 10]; Mo 38835225 4 [1; 11]]];
  [[Mo 31 80 [1; 2; 2]; Mo 23 48 [1; 1; 3]; Mo (-105) 2 [3; 4]; Mo (-63) 1 [2; 5]; Mo (-99) 1 [1; 6]; Mo 36465 2 [9]]; [Mo 1 96 [1; 1; 1; 1]; Mo (-93) 80 [2; 2; 2]; Mo (-69) 8 [1; 2; 3]; Mo (-287) 48 [1; 1; 4]; Mo 735 2 [4; 4]; Mo 1575 2 [3; 5]; Mo 990 1 [2; 6]; Mo 6435 4 [1; 7]; Mo (-692835) 2 [10]]; [Mo (-1) 6 [1; 1; 1; 2]; Mo 1611 80 [2; 2; 3]; Mo 397 16 [1; 3; 3]; Mo 443 8 [1; 2; 4]; Mo 1967 48 [1; 1; 5]; Mo (-11445) 2 [4; 5]; Mo (-12843) 2 [3; 6]; Mo (-33363) 4 [2; 7]; Mo (-55341) 4 [1; 8]; Mo 3464175 1 [11]]; [Mo 11 16 [1; 1; 2; 2]; Mo 9 16 [1; 1; 1; 3]; Mo (-1293) 16 [2; 3; 3]; Mo (-1439) 16 [2; 2; 4]; Mo (-2641) 12 [1; 3; 4]; Mo (-525) 2 [1; 2; 5]; Mo (-3227) 16 [1; 1; 6]; Mo 15435 1 [5; 5]; Mo 64665 2 [4; 6]; Mo 149985 4 [3; 7]; Mo 199485 4 [2; 8]; Mo 83655 1 [1; 9]; Mo (-24249225) 1 [12]]; [Mo 1 768 [1; 1; 1; 1; 1]; Mo (-1) 1 [1; 2; 2; 2]; Mo (-29) 8 [1; 1; 2; 3]; Mo (-13) 8 [1; 1; 1; 4]; Mo 339 4 [3; 3; 3]; Mo 2259 4 [2; 3; 4]; Mo 18241 48 [1; 4; 4]; Mo 1341 4 [2; 2; 5]; Mo 6499 8 [1; 3; 5]; Mo 8099 8 [1; 2; 6]; Mo 6349 8 [1; 1; 7]; Mo (-135990) 1 [5; 6]; Mo (-588897) 4 [4; 7]; Mo (-699831) 4 [3; 8]; Mo (-236808) 1 [2; 9]; Mo (-398970) 1 [1; 10]; Mo 266741475 2 [13]]];
  [[Mo 11 30 [1; 1; 1; 2]; Mo (-693) 16 [2; 2; 3]; Mo (-5995) 112 [1; 3; 3]; Mo (-957) 8 [1; 2; 4]; Mo (-1419) 16 [1; 1; 5]; Mo 24255 2 [4; 5]; Mo 27225 2 [3; 6]; Mo 70785 4 [2; 7]; Mo 117975 4 [1; 8]; Mo (-14549535) 2 [11]]; [Mo (-807) 160 [1; 1; 2; 2]; Mo (-383) 96 [1; 1; 1; 3]; Mo 66495 112 [2; 3; 3]; Mo 10593 16 [2; 2; 4]; Mo 6335 4 [1; 3; 4]; Mo 7569 4 [1; 2; 5]; Mo 22737 16 [1; 1; 6]; Mo (-218295) 2 [5; 5]; Mo (-228690) 1 [4; 6]; Mo (-1061775) 4 [3; 7]; Mo (-353925) 1 [2; 8]; Mo (-583440) 1 [1; 9]; Mo 334639305 2 [12]]; [Mo (-7) 384 [1; 1; 1; 1; 1]; Mo 135 8 [1; 2; 2; 2]; Mo 4713 80 [1; 1; 2; 3]; Mo 403 16 [1; 1; 1; 4]; Mo (-157245) 112 [3; 3; 3]; Mo (-37311) 4 [2; 3; 4]; Mo (-97135) 16 [1; 4; 4]; Mo (-88389) 16 [2; 2; 5]; Mo (-103909) 8 [1; 3; 5]; Mo (-16137) 1 [1; 2; 6]; Mo (-195327) 16 [1; 1; 7]; Mo 2127510 1 [5; 6]; Mo 9218385 4 [4; 7]; Mo 10971675 4 [3; 8]; Mo 7419555 2 [2; 9]; Mo 12142845 2 [1; 10]; Mo (-2007835830) 1 [13]]; [Mo 97 384 [1; 1; 1; 1; 2]; Mo (-2421) 160 [2; 2; 2; 2]; Mo (-16797) 80 [1; 2; 2; 3]; Mo (-3873) 32 [1; 1; 3; 3]; Mo (-8461) 32 [1; 1; 2; 4]; Mo (-707) 6 [1; 1; 1; 5]; Mo 2568505 112 [3; 3; 4]; Mo 403155 16 [2; 4; 4]; Mo 53781 1 [2; 3; 5]; Mo 275375 4 [1; 4; 5]; Mo 528363 16 [2; 2; 6]; Mo 615657 8 [1; 3; 6]; Mo 195723 2 [1; 2; 7]; Mo 1189617 16 [1; 1; 8]; Mo (-14293125) 2 [6; 6]; Mo (-59116365) 4 [5; 7]; Mo (-65664885) 4 [4; 8]; Mo (-79607385) 4 [3; 9]; Mo (-27129960) 1 [2; 10]; Mo (-176672925) 4 [1; 11]]; [Mo (-221) 192 [1; 1; 1; 2; 2]; Mo (-165) 256 [1; 1; 1; 1; 3]; Mo 6387 32 [2; 2; 2; 3]; Mo 13797 20 [1; 2; 3; 3]; Mo 119589 160 [1; 2; 2; 4]; Mo 6863 8 [1; 1; 3; 4]; Mo 7881 8 [1; 1; 2; 5]; Mo 21581 48 [1; 1; 1; 6]; Mo (-1553465) 16 [3; 4; 4]; Mo (-11569743) 112 [3; 3; 5]; Mo (-450957) 2 [2; 4; 5]; Mo (-151765) 1 [1; 5; 5]; Mo (-2007531) 8 [2; 3; 6]; Mo (-2540169) 8 [1; 4; 6]; Mo (-2522223) 16 [2; 2; 7]; Mo (-1462461) 4 [1; 3; 7]; Mo (-471537) 1 [1; 2; 8]; Mo (-5744739) 16 [1; 1; 9]; Mo 76992300 1 [6; 7]; Mo 81636885 1 [5; 8]; Mo 369778695 4 [4; 9]; Mo 454304565 4 [3; 10]; Mo 621910575 4 [2; 11]; Mo 1008074925 4 [1; 12]]];
  [[Mo (-11) 1152 [1; 1; 1; 1]; Mo 671 560 [2; 2; 2]; Mo 473 56 [1; 2; 3]; Mo 275 48 [1; 1; 4]; Mo (-8855) 24 [4; 4]; Mo (-3135) 4 [3; 5]; Mo (-3993) 4 [2; 6]; Mo (-1573) 1 [1; 7]; Mo 692835 2 [10]]; [Mo 77 240 [1; 1; 1; 2]; Mo (-693) 16 [2; 2; 3]; Mo (-5765) 112 [1; 3; 3]; Mo (-919) 8 [1; 2; 4]; Mo (-1311) 16 [1; 1; 5]; Mo 24255 2 [4; 5]; Mo 27225 2 [3; 6]; Mo 70785 4 [2; 7]; Mo 113685 4 [1; 8]; Mo (-14549535) 2 [11]]; [Mo (-69) 32 [1; 1; 2; 2]; Mo (-163) 96 [1; 1; 1; 3]; Mo 15483 56 [2; 3; 3]; Mo 17037 56 [2; 2; 4]; Mo 20365 28 [1; 3; 4]; Mo 3439 4 [1; 2; 5]; Mo 2541 4 [1; 1; 6]; Mo (-414645) 8 [5; 5]; Mo (-434115) 4 [4; 6]; Mo (-504207) 4 [3; 7]; Mo (-166452) 1 [2; 8]; Mo (-1083225) 4 [1; 9]; Mo 160044885 2 [12]]; [Mo (-5) 1152 [1; 1; 1; 1; 1]; Mo 723 160 [1; 2; 2; 2]; Mo 2579 160 [1; 1; 2; 3]; Mo 497 72 [1; 1; 1; 4]; Mo (-23095) 56 [3; 3; 3]; Mo (-10837) 4 [2; 3; 4]; Mo (-85195) 48 [1; 4; 4]; Mo (-12663) 8 [2; 2; 5]; Mo (-30311) 8 [1; 3; 5]; Mo (-37131) 8 [1; 2; 6]; Mo (-28105) 8 [1; 1; 7]; Mo 641025 1 [5; 6]; Mo 1388475 2 [4; 7]; Mo 1649505 2 [3; 8]; Mo 1102530 1 [2; 9]; Mo 7232225 4 [1; 10]; Mo (-1227010785) 2 [13]]; [Mo 11 256 [1; 1; 1; 1; 2]; Mo (-1809) 640 [2; 2; 2; 2]; Mo (-643) 16 [1; 2; 2; 3]; Mo (-1529) 64 [1; 1; 3; 3]; Mo (-4139) 80 [1; 1; 2; 4]; Mo (-2239) 96 [1; 1; 1; 5]; Mo 266335 56 [3; 3; 4]; Mo 291157 56 [2; 4; 4]; Mo 77277 7 [2; 3; 5]; Mo 115283 8 [1; 4; 5]; Mo 6708 1 [2; 2; 6]; Mo 128159 8 [1; 3; 6]; Mo 160941 8 [1; 2; 7]; Mo 123717 8 [1; 1; 8]; Mo (-12329625) 8 [6; 6]; Mo (-6373125) 2 [5; 7]; Mo (-14150895) 4 [4; 8]; Mo (-17080635) 4 [3; 9]; Mo (-23056605) 4 [2; 10]; Mo (-37960065) 4 [1; 11]]]];
 [[[Mo 1 5 [1; 1; 1; 2]; Mo (-189) 8 [2; 2; 3]; Mo (-1635) 56 [1; 3; 3]; Mo (-261) 4 [1; 2; 4]; Mo (-387) 8 [1; 1; 5]; Mo 6615 1 [4; 5]; Mo 7425 1 [3; 6]; Mo 19305 2 [2; 7]; Mo 32175 2 [1; 8]; Mo (-3968055) 1 [11]]; [Mo (-443) 160 [1; 1; 2; 2]; Mo (-211) 96 [1; 1; 1; 3]; Mo 18135 56 [2; 3; 3]; Mo 2889 8 [2; 2; 4]; Mo 3465 4 [1; 3; 4]; Mo 1035 1 [1; 2; 5]; Mo 6237 8 [1; 1; 6]; Mo (-59535) 1 [5; 5]; Mo (-124740) 1 [4; 6]; Mo (-289575) 2 [3; 7]; Mo (-193050) 1 [2; 8]; Mo (-1276275) 4 [1; 9]; Mo 91265265 1 [12]]; [Mo (-1) 96 [1; 1; 1; 1; 1]; Mo 371 40 [1; 2; 2; 2]; Mo 15623 480 [1; 1; 2; 3]; Mo 1345 96 [1; 1; 1; 4]; Mo (-42885) 56 [3; 3; 3]; Mo (-20361) 4 [2; 3; 4]; Mo (-26625) 8 [1; 4; 4]; Mo (-24129) 8 [2; 2; 5]; Mo (-14241) 2 [1; 3; 5]; Mo (-17703) 2 [1; 2; 6]; Mo (-6732) 1 [1; 1; 7]; Mo 1160460 1 [5; 6]; Mo 2514105 2 [4; 7]; Mo 2992275 2 [3; 8]; Mo 8097375 4 [2; 9]; Mo 13309725 4 [1; 10]; Mo (-1095183180) 1 [13]]; [Mo 7 48 [1; 1; 1; 1; 2]; Mo (-1329) 160 [2; 2; 2; 2]; Mo (-2317) 20 [1; 2; 2; 3]; Mo (-403) 6 [1; 1; 3; 3]; Mo (-14113) 96 [1; 1; 2; 4]; Mo (-6349) 96 [1; 1; 1; 5]; Mo 700635 56 [3; 3; 4]; Mo 110085 8 [2; 4; 4]; Mo 117495 4 [2; 3; 5]; Mo 151245 4 [1; 4; 5]; Mo 144459 8 [2; 2; 6]; Mo 42273 1 [1; 3; 6]; Mo 215325 4 [1; 2; 7]; Mo 41184 1 [1; 1; 8]; Mo (-3898125) 1 [6; 6]; Mo (-16122645) 2 [5; 7]; Mo (-17908605) 2 [4; 8]; Mo (-43425525) 4 [3; 9]; Mo (-59255625) 4 [2; 10]; Mo (-24249225) 1 [1; 11]]];
  [[Mo (-1) 192 [1; 1; 1; 1]; Mo 183 280 [2; 2; 2]; Mo 129 28 [1; 2; 3]; Mo 25 8 [1; 1; 4]; Mo (-805) 4 [4; 4]; Mo (-855) 2 [3; 5]; Mo (-1089) 2 [2; 6]; Mo (-858) 1 [1; 7]; Mo 188955 1 [10]]; [Mo 17 96 [1; 1; 1; 2]; Mo (-189) 8 [2; 2; 3]; Mo (-3155) 112 [1; 3; 3]; Mo (-503) 8 [1; 2; 4]; Mo (-45) 1 [1; 1; 5]; Mo 6615 1 [4; 5]; Mo 7425 1 [3; 6]; Mo 19305 2 [2; 7]; Mo 62205 4 [1; 8]; Mo (-3968055) 1 [11]]; [Mo (-287) 240 [1; 1; 2; 2]; Mo (-91) 96 [1; 1; 1; 3]; Mo 16901 112 [2; 3; 3]; Mo 9305 56 [2; 2; 4]; Mo 11175 28 [1; 3; 4]; Mo 3777 8 [1; 2; 5]; Mo 351 1 [1; 1; 6]; Mo (-113085) 4 [5; 5]; Mo (-118395) 2 [4; 6]; Mo (-137511) 2 [3; 7]; Mo (-363363) 4 [2; 8]; Mo (-594165) 4 [1; 9]; Mo 43648605 1 [12]]; [Mo (-1) 384 [1; 1; 1; 1; 1]; Mo 401 160 [1; 2; 2; 2]; Mo 9 1 [1; 1; 2; 3]; Mo 187 48 [1; 1; 1; 4]; Mo (-25205) 112 [3; 3; 3]; Mo (-11843) 8 [2; 3; 4]; Mo (-15615) 16 [1; 4; 4]; Mo (-3465) 4 [2; 2; 5]; Mo (-8335) 4 [1; 3; 5]; Mo (-20457) 8 [1; 2; 6]; Mo (-15609) 8 [1; 1; 7]; Mo 349650 1 [5; 6]; Mo 378675 1 [4; 7]; Mo 1799655 4 [3; 8]; Mo 2408835 4 [2; 9]; Mo 3974685 4 [1; 10]; Mo (-334639305) 1 [13]]];
  [[Mo 593 224 [1; 1; 2; 2]; Mo 697 336 [1; 1; 1; 3]; Mo (-18135) 56 [2; 3; 3]; Mo (-2853) 8 [2; 2; 4]; Mo (-855) 1 [1; 3; 4]; Mo (-1017) 1 [1; 2; 5]; Mo (-6039) 8 [1; 1; 6]; Mo 2622375 44 [5; 5]; Mo 249165 2 [4; 6]; Mo 145080 1 [3; 7]; Mo 384345 2 [2; 8]; Mo 314925 1 [1; 9]; Mo (-91265265) 1 [12]]; [Mo 41 2304 [1; 1; 1; 1; 1]; Mo (-4189) 224 [1; 2; 2; 2]; Mo (-7311) 112 [1; 1; 2; 3]; Mo (-879) 32 [1; 1; 1; 4]; Mo 90675 56 [3; 3; 3]; Mo 10665 1 [2; 3; 4]; Mo 331205 48 [1; 4; 4]; Mo 50085 8 [2; 2; 5]; Mo 118065 8 [1; 3; 5]; Mo 145365 8 [1; 2; 6]; Mo 108823 8 [1; 1; 7]; Mo (-2432430) 1 [5; 6]; Mo (-5270265) 2 [4; 7]; Mo (-6274125) 2 [3; 8]; Mo (-8423415) 2 [2; 9]; Mo (-27398475) 4 [1; 10]; Mo 2281631625 1 [13]]; [Mo (-4609) 11520 [1; 1; 1; 1; 2]; Mo 373 14 [2; 2; 2; 2]; Mo 11821 32 [1; 2; 2; 3]; Mo 47869 224 [1; 1; 3; 3]; Mo 310669 672 [1; 1; 2; 4]; Mo 19517 96 [1; 1; 1; 5]; Mo (-1164015) 28 [3; 3; 4]; Mo (-2180975) 48 [2; 4; 4]; Mo (-773211) 8 [2; 3; 5]; Mo (-493515) 4 [1; 4; 5]; Mo (-470859) 8 [2; 2; 6]; Mo (-549999) 4 [1; 3; 6]; Mo (-1384537) 8 [1; 2; 7]; Mo (-1042899) 8 [1; 1; 8]; Mo 51270975 4 [6; 6]; Mo 53011035 2 [5; 7]; Mo 29452995 1 [4; 8]; Mo 71267625 2 [3; 9]; Mo 192876645 4 [2; 10]; Mo 312090675 4 [1; 11]]; [Mo 2509 960 [1; 1; 1; 2; 2]; Mo 3425 2304 [1; 1; 1; 1; 3]; Mo (-55445) 112 [2; 2; 2; 3]; Mo (-54807) 32 [1; 2; 3; 3]; Mo (-206921) 112 [1; 2; 2; 4]; Mo (-1432687) 672 [1; 1; 3; 4]; Mo (-77331) 32 [1; 1; 2; 5]; Mo (-8753) 8 [1; 1; 1; 6]; Mo 11818355 48 [3; 4; 4]; Mo 2087265 8 [3; 3; 5]; Mo 2271465 4 [2; 4; 5]; Mo 6089055 16 [1; 5; 5]; Mo 5031195 8 [2; 3; 6]; Mo 6364305 8 [1; 4; 6]; Mo 3134439 8 [2; 2; 7]; Mo 7288501 8 [1; 3; 7]; Mo 9307155 8 [1; 2; 8]; Mo 7042035 8 [1; 1; 9]; Mo (-192161970) 1 [6; 7]; Mo (-203783580) 1 [5; 8]; Mo (-230705475) 1 [4; 9]; Mo (-1129735425) 4 [3; 10]; Mo (-1535637285) 4 [2; 11]; Mo (-2475625425) 4 [1; 12]]];
  [[Mo (-37) 240 [1; 1; 1; 2]; Mo 189 8 [2; 2; 3]; Mo 190 7 [1; 3; 3]; Mo 121 2 [1; 2; 4]; Mo 333 8 [1; 1; 5]; Mo (-6615) 1 [4; 5]; Mo (-7425) 1 [3; 6]; Mo (-19305) 2 [2; 7]; Mo (-15015) 1 [1; 8]; Mo 3968055 1 [11]]; [Mo 359 160 [1; 1; 2; 2]; Mo 55 32 [1; 1; 1; 3]; Mo (-8895) 28 [2; 3; 3]; Mo (-2775) 8 [2; 2; 4]; Mo (-3255) 4 [1; 3; 4]; Mo (-3807) 4 [1; 2; 5]; Mo (-5445) 8 [1; 1; 6]; Mo 59535 1 [5; 5]; Mo 124740 1 [4; 6]; Mo 289575 2 [3; 7]; Mo 379665 2 [2; 8]; Mo 1203345 4 [1; 9]; Mo (-91265265) 1 [12]]; [Mo 1 192 [1; 1; 1; 1; 1]; Mo (-607) 80 [1; 2; 2; 2]; Mo (-12857) 480 [1; 1; 2; 3]; Mo (-1069) 96 [1; 1; 1; 4]; Mo 42195 56 [3; 3; 3]; Mo 19617 4 [2; 3; 4]; Mo 12625 4 [1; 4; 4]; Mo 22617 8 [2; 2; 5]; Mo 26843 4 [1; 3; 5]; Mo 32373 4 [1; 2; 6]; Mo 23859 4 [1; 1; 7]; Mo (-1160460) 1 [5; 6]; Mo (-2514105) 2 [4; 7]; Mo (-2979405) 2 [3; 8]; Mo (-7878585) 4 [2; 9]; Mo (-12653355) 4 [1; 10]; Mo 1095183180 1 [13]]; [Mo (-5) 64 [1; 1; 1; 1; 2]; Mo 1077 160 [2; 2; 2; 2]; Mo 3827 40 [1; 2; 2; 3]; Mo 2735 48 [1; 1; 3; 3]; Mo 11677 96 [1; 1; 2; 4]; Mo 1715 32 [1; 1; 1; 5]; Mo (-681845) 56 [3; 3; 4]; Mo (-26395) 2 [2; 4; 4]; Mo (-27888) 1 [2; 3; 5]; Mo (-144255) 4 [1; 4; 5]; Mo (-133389) 8 [2; 2; 6]; Mo (-39795) 1 [1; 3; 6]; Mo (-98175) 2 [1; 2; 7]; Mo (-148005) 4 [1; 1; 8]; Mo 3898125 1 [6; 6]; Mo 16122645 2 [5; 7]; Mo 17887155 2 [4; 8]; Mo 42987945 4 [3; 9]; Mo 57286515 4 [2; 10]; Mo 46419945 2 [1; 11]]]];
 [[[Mo 1009 960 [1; 1; 2; 2]; Mo 5 6 [1; 1; 1; 3]; Mo (-2015) 16 [2; 3; 3]; Mo (-2219) 16 [2; 2; 4]; Mo (-4025) 12 [1; 3; 4]; Mo (-399) 1 [1; 2; 5]; Mo (-4785) 16 [1; 1; 6]; Mo 2039625 88 [5; 5]; Mo 193795 4 [4; 6]; Mo 56420 1 [3; 7]; Mo 298935 4 [2; 8]; Mo 493935 4 [1; 9]; Mo (-70984095) 2 [12]]; [Mo 1 128 [1; 1; 1; 1; 1]; Mo (-1665) 224 [1; 2; 2; 2]; Mo (-17599) 672 [1; 1; 2; 3]; Mo (-179) 16 [1; 1; 1; 4]; Mo 10075 16 [3; 3; 3]; Mo 16625 4 [2; 3; 4]; Mo 65135 24 [1; 4; 4]; Mo 39123 16 [2; 2; 5]; Mo 5805 1 [1; 3; 5]; Mo 57321 8 [1; 2; 6]; Mo 86801 16 [1; 1; 7]; Mo (-945945) 1 [5; 6]; Mo (-4099095) 4 [4; 7]; Mo (-4879875) 4 [3; 8]; Mo (-1640925) 1 [2; 9]; Mo (-10770435) 4 [1; 10]; Mo 1774602375 2 [13]]; [Mo (-17) 96 [1; 1; 1; 1; 2]; Mo 23713 2240 [2; 2; 2; 2]; Mo 82763 560 [1; 2; 2; 3]; Mo 7235 84 [1; 1; 3; 3]; Mo 8993 48 [1; 1; 2; 4]; Mo 8045 96 [1; 1; 1; 5]; Mo (-129475) 8 [3; 3; 4]; Mo (-851585) 48 [2; 4; 4]; Mo (-302087) 8 [2; 3; 5]; Mo (-583625) 12 [1; 4; 5]; Mo (-92325) 4 [2; 2; 6]; Mo (-54240) 1 [1; 3; 6]; Mo (-548581) 8 [1; 2; 7]; Mo (-418275) 8 [1; 1; 8]; Mo 39877425 8 [6; 6]; Mo 41230805 4 [5; 7]; Mo 22907885 2 [4; 8]; Mo 55454685 4 [3; 9]; Mo 18819255 1 [2; 10]; Mo 30736680 1 [1; 11]]];
  [[Mo (-1) 16 [1; 1; 1; 2]; Mo 147 16 [2; 2; 3]; Mo 1195 112 [1; 3; 3]; Mo 571 24 [1; 2; 4]; Mo 265 16 [1; 1; 5]; Mo (-5145) 2 [4; 5]; Mo (-5775) 2 [3; 6]; Mo (-15015) 4 [2; 7]; Mo (-23595) 4 [1; 8]; Mo 3086265 2 [11]]; [Mo 73 80 [1; 1; 2; 2]; Mo 17 24 [1; 1; 1; 3]; Mo (-13875) 112 [2; 3; 3]; Mo (-2171) 16 [2; 2; 4]; Mo (-1925) 6 [1; 3; 4]; Mo (-753) 2 [1; 2; 5]; Mo (-4367) 16 [1; 1; 6]; Mo 46305 2 [5; 5]; Mo 48510 1 [4; 6]; Mo 225225 4 [3; 7]; Mo 148005 2 [2; 8]; Mo 474045 4 [1; 9]; Mo (-70984095) 2 [12]]; [Mo 1 384 [1; 1; 1; 1; 1]; Mo (-247) 80 [1; 2; 2; 2]; Mo (-1055) 96 [1; 1; 2; 3]; Mo (-149) 32 [1; 1; 1; 4]; Mo 32895 112 [3; 3; 3]; Mo 1919 1 [2; 3; 4]; Mo 19955 16 [1; 4; 4]; Mo 17787 16 [2; 2; 5]; Mo 21235 8 [1; 3; 5]; Mo 12879 4 [1; 2; 6]; Mo 38511 16 [1; 1; 7]; Mo (-451290) 1 [5; 6]; Mo (-1955415) 4 [4; 7]; Mo (-2318745) 4 [3; 8]; Mo (-3078075) 4 [2; 9]; Mo (-4995705) 4 [1; 10]; Mo 425904570 1 [13]]];
  [[Mo (-13) 2304 [1; 1; 1; 1; 1]; Mo 3847 560 [1; 2; 2; 2]; Mo 5417 224 [1; 1; 2; 3]; Mo 2899 288 [1; 1; 1; 4]; Mo (-10075) 16 [3; 3; 3]; Mo (-16415) 4 [2; 3; 4]; Mo (-42455) 16 [1; 4; 4]; Mo (-38115) 16 [2; 2; 5]; Mo (-45375) 8 [1; 3; 5]; Mo (-27621) 4 [1; 2; 6]; Mo (-82225) 16 [1; 1; 7]; Mo 945945 1 [5; 6]; Mo 4099095 4 [4; 7]; Mo 4879875 4 [3; 8]; Mo 3245385 2 [2; 9]; Mo 5269745 2 [1; 10]; Mo (-1774602375) 2 [13]]; [Mo 1061 3840 [1; 1; 1; 1; 2]; Mo (-11541) 560 [2; 2; 2; 2]; Mo (-32223) 112 [1; 2; 2; 3]; Mo (-37655) 224 [1; 1; 3; 3]; Mo (-721) 2 [1; 1; 2; 4]; Mo (-5041) 32 [1; 1; 1; 5]; Mo 539875 16 [3; 3; 4]; Mo 586985 16 [2; 4; 4]; Mo 311085 4 [2; 3; 5]; Mo 199185 2 [1; 4; 5]; Mo 750717 16 [2; 2; 6]; Mo 884235 8 [1; 3; 6]; Mo 1101243 8 [1; 2; 7]; Mo 1653795 16 [1; 1; 8]; Mo (-10405395) 1 [6; 6]; Mo (-86080995) 4 [5; 7]; Mo (-47822775) 2 [4; 8]; Mo (-115411725) 4 [3; 9]; Mo (-38735775) 1 [2; 10]; Mo (-62607090) 1 [1; 11]]; [Mo (-2791) 960 [1; 1; 1; 2; 2]; Mo (-325) 192 [1; 1; 1; 1; 3]; Mo 680469 1120 [2; 2; 2; 3]; Mo 14807 7 [1; 2; 3; 3]; Mo 509833 224 [1; 2; 2; 4]; Mo 297083 112 [1; 1; 3; 4]; Mo 95261 32 [1; 1; 2; 5]; Mo 43073 32 [1; 1; 1; 6]; Mo (-5018755) 16 [3; 4; 4]; Mo (-5298375) 16 [3; 3; 5]; Mo (-5755435) 8 [2; 4; 5]; Mo (-7726215) 16 [1; 5; 5]; Mo (-792504) 1 [2; 3; 6]; Mo (-2015625) 2 [1; 4; 6]; Mo (-7837335) 16 [2; 2; 7]; Mo (-1147080) 1 [1; 3; 7]; Mo (-11614317) 8 [1; 2; 8]; Mo (-17561115) 16 [1; 1; 9]; Mo 975269295 4 [6; 7]; Mo 1034338305 4 [5; 8]; Mo 1169958075 4 [4; 9]; Mo 1426480965 4 [3; 10]; Mo 481583310 1 [2; 11]; Mo 775975200 1 [1; 12]]];
  [[Mo (-743) 960 [1; 1; 2; 2]; Mo (-7) 12 [1; 1; 1; 3]; Mo 13645 112 [2; 3; 3]; Mo 2123 16 [2; 2; 4]; Mo 1225 4 [1; 3; 4]; Mo 354 1 [1; 2; 5]; Mo 3949 16 [1; 1; 6]; Mo (-2035215) 88 [5; 5]; Mo (-194285) 4 [4; 6]; Mo (-112385) 2 [3; 7]; Mo (-293085) 4 [2; 8]; Mo (-454155) 4 [1; 9]; Mo 70984095 2 [12]]; [Mo (-1) 384 [1; 1; 1; 1; 1]; Mo 6291 1120 [1; 2; 2; 2]; Mo 13229 672 [1; 1; 2; 3]; Mo 129 16 [1; 1; 1; 4]; Mo (-68225) 112 [3; 3; 3]; Mo (-15805) 4 [2; 3; 4]; Mo (-60305) 24 [1; 4; 4]; Mo (-36099) 16 [2; 2; 5]; Mo (-5310) 1 [1; 3; 5]; Mo (-50589) 8 [1; 2; 6]; Mo (-73073) 16 [1; 1; 7]; Mo 945945 1 [5; 6]; Mo 4099095 4 [4; 7]; Mo 4836975 4 [3; 8]; Mo 3172455 2 [2; 9]; Mo 10014615 4 [1; 10]; Mo (-1774602375) 2 [13]]; [Mo 13 192 [1; 1; 1; 1; 2]; Mo (-17783) 2240 [2; 2; 2; 2]; Mo (-63201) 560 [1; 2; 2; 3]; Mo (-22573) 336 [1; 1; 3; 3]; Mo (-6851) 48 [1; 1; 2; 4]; Mo (-5969) 96 [1; 1; 1; 5]; Mo 868575 56 [3; 3; 4]; Mo 804025 48 [2; 4; 4]; Mo 282007 8 [2; 3; 5]; Mo 181225 4 [1; 4; 5]; Mo 20823 1 [2; 2; 6]; Mo 49578 1 [1; 3; 6]; Mo 483065 8 [1; 2; 7]; Mo 358787 8 [1; 1; 8]; Mo (-39873015) 8 [6; 6]; Mo (-41236195) 4 [5; 7]; Mo (-11419265) 1 [4; 8]; Mo (-54609555) 4 [3; 9]; Mo (-36057255) 2 [2; 10]; Mo (-28847130) 1 [1; 11]]]];
 [[[Mo (-5) 2304 [1; 1; 1; 1; 1]; Mo 1233 560 [1; 2; 2; 2]; Mo 1755 224 [1; 1; 2; 3]; Mo 961 288 [1; 1; 1; 4]; Mo (-775) 4 [3; 3; 3]; Mo (-5075) 4 [2; 3; 4]; Mo (-39865) 48 [1; 4; 4]; Mo (-2961) 4 [2; 2; 5]; Mo (-14205) 8 [1; 3; 5]; Mo (-17391) 8 [1; 2; 6]; Mo (-3289) 2 [1; 1; 7]; Mo 291060 1 [5; 6]; Mo 315315 1 [4; 7]; Mo 375375 1 [3; 8]; Mo 2005575 4 [2; 9]; Mo 3296215 4 [1; 10]; Mo (-273015750) 1 [13]]; [Mo 27 256 [1; 1; 1; 1; 2]; Mo (-3699) 560 [2; 2; 2; 2]; Mo (-20805) 224 [1; 2; 2; 3]; Mo (-12235) 224 [1; 1; 3; 3]; Mo (-1891) 16 [1; 1; 2; 4]; Mo (-845) 16 [1; 1; 1; 5]; Mo 20825 2 [3; 3; 4]; Mo 181965 16 [2; 4; 4]; Mo 193185 8 [2; 3; 5]; Mo 62475 2 [1; 4; 5]; Mo 117315 8 [2; 2; 6]; Mo 69465 2 [1; 3; 6]; Mo 348777 8 [1; 2; 7]; Mo 66495 2 [1; 1; 8]; Mo (-3201660) 1 [6; 6]; Mo (-6621615) 1 [5; 7]; Mo (-7357350) 1 [4; 8]; Mo (-35553375) 4 [3; 9]; Mo (-23997285) 2 [2; 10]; Mo (-39239655) 2 [1; 11]]];
  [[Mo (-31) 120 [1; 1; 2; 2]; Mo (-19) 96 [1; 1; 1; 3]; Mo 4225 112 [2; 3; 3]; Mo 331 8 [2; 2; 4]; Mo 385 4 [1; 3; 4]; Mo 897 8 [1; 2; 5]; Mo 319 4 [1; 1; 6]; Mo (-156555) 22 [5; 5]; Mo (-14945) 1 [4; 6]; Mo (-17290) 1 [3; 7]; Mo (-90675) 4 [2; 8]; Mo (-142545) 4 [1; 9]; Mo 10920630 1 [12]]; [Mo (-1) 768 [1; 1; 1; 1; 1]; Mo 15 8 [1; 2; 2; 2]; Mo 635 96 [1; 1; 2; 3]; Mo 133 48 [1; 1; 1; 4]; Mo (-21125) 112 [3; 3; 3]; Mo (-9845) 8 [2; 3; 4]; Mo (-37975) 48 [1; 4; 4]; Mo (-2835) 4 [2; 2; 5]; Mo (-6705) 4 [1; 3; 5]; Mo (-16137) 8 [1; 2; 6]; Mo (-11869) 8 [1; 1; 7]; Mo 291060 1 [5; 6]; Mo 315315 1 [4; 7]; Mo 1490775 4 [3; 8]; Mo 984555 2 [2; 9]; Mo 1574625 2 [1; 10]; Mo (-273015750) 1 [13]]];
  [[Mo (-809) 11520 [1; 1; 1; 1; 2]; Mo 83 14 [2; 2; 2; 2]; Mo 18749 224 [1; 2; 2; 3]; Mo 33275 672 [1; 1; 3; 3]; Mo 3375 32 [1; 1; 2; 4]; Mo 1473 32 [1; 1; 1; 5]; Mo (-1359575) 132 [3; 3; 4]; Mo (-1960385) 176 [2; 4; 4]; Mo (-2073255) 88 [2; 3; 5]; Mo (-1335005) 44 [1; 4; 5]; Mo (-112581) 8 [2; 2; 6]; Mo (-134055) 4 [1; 3; 6]; Mo (-330681) 8 [1; 2; 7]; Mo (-248235) 8 [1; 1; 8]; Mo 83218905 26 [6; 6]; Mo 6623820 1 [5; 7]; Mo 7353675 1 [4; 8]; Mo 17703375 2 [3; 9]; Mo 47166075 4 [2; 10]; Mo 76342665 4 [1; 11]]; [Mo 3049 1920 [1; 1; 1; 2; 2]; Mo 2189 2304 [1; 1; 1; 1; 3]; Mo (-82807) 224 [2; 2; 2; 3]; Mo (-10395) 8 [1; 2; 3; 3]; Mo (-22333) 16 [1; 2; 2; 4]; Mo (-157915) 96 [1; 1; 3; 4]; Mo (-29349) 16 [1; 1; 2; 5]; Mo (-13299) 16 [1; 1; 1; 6]; Mo 9594725 48 [3; 4; 4]; Mo 1683975 8 [3; 3; 5]; Mo 456435 1 [2; 4; 5]; Mo 54179055 176 [1; 5; 5]; Mo 4003395 8 [2; 3; 6]; Mo 5128165 8 [1; 4; 6]; Mo 613899 2 [2; 2; 7]; Mo 5803005 8 [1; 3; 7]; Mo 7288515 8 [1; 2; 8]; Mo 5519475 8 [1; 1; 9]; Mo (-156080925) 1 [6; 7]; Mo (-165540375) 1 [5; 8]; Mo (-373948575) 2 [4; 9]; Mo (-908558625) 4 [3; 10]; Mo (-609757785) 2 [2; 11]; Mo (-492208395) 1 [1; 12]]];
  [[Mo 1 2304 [1; 1; 1; 1; 1]; Mo (-867) 560 [1; 2; 2; 2]; Mo (-3625) 672 [1; 1; 2; 3]; Mo (-635) 288 [1; 1; 1; 4]; Mo 10275 56 [3; 3; 3]; Mo 2385 2 [2; 3; 4]; Mo 36085 48 [1; 4; 4]; Mo 2709 4 [2; 2; 5]; Mo 12615 8 [1; 3; 5]; Mo 14883 8 [1; 2; 6]; Mo 5291 4 [1; 1; 7]; Mo (-291060) 1 [5; 6]; Mo (-315315) 1 [4; 7]; Mo (-740025) 2 [3; 8]; Mo (-1932645) 4 [2; 9]; Mo (-3002285) 4 [1; 10]; Mo 273015750 1 [13]]; [Mo (-7) 256 [1; 1; 1; 1; 2]; Mo 2601 560 [2; 2; 2; 2]; Mo 14783 224 [1; 2; 2; 3]; Mo 26315 672 [1; 1; 3; 3]; Mo 1001 12 [1; 1; 2; 4]; Mo 145 4 [1; 1; 1; 5]; Mo (-78525) 8 [3; 3; 4]; Mo (-169645) 16 [2; 4; 4]; Mo (-177885) 8 [2; 3; 5]; Mo (-113715) 4 [1; 4; 5]; Mo (-104247) 8 [2; 2; 6]; Mo (-30855) 1 [1; 3; 6]; Mo (-298155) 8 [1; 2; 7]; Mo (-109395) 4 [1; 1; 8]; Mo 3201660 1 [6; 6]; Mo 6621615 1 [5; 7]; Mo 14639625 2 [4; 8]; Mo 34824075 4 [3; 9]; Mo 22863555 2 [2; 10]; Mo 18076695 1 [1; 11]]]];
 [[[Mo (-19) 768 [1; 1; 1; 1; 2]; Mo 4539 2800 [2; 2; 2; 2]; Mo 25831 1120 [1; 2; 2; 3]; Mo 9209 672 [1; 1; 3; 3]; Mo 4723 160 [1; 1; 2; 4]; Mo 423 32 [1; 1; 1; 5]; Mo (-117195) 44 [3; 3; 4]; Mo (-509621) 176 [2; 4; 4]; Mo (-540675) 88 [2; 3; 5]; Mo (-351603) 44 [1; 4; 5]; Mo (-148113) 40 [2; 2; 6]; Mo (-35433) 4 [1; 3; 6]; Mo (-441831) 40 [1; 2; 7]; Mo (-67509) 8 [1; 1; 8]; Mo 21399147 26 [6; 6]; Mo 1703268 1 [5; 7]; Mo 1890945 1 [4; 8]; Mo 4562715 2 [3; 9]; Mo 12247191 4 [2; 10]; Mo 20084463 4 [1; 11]]];
  [[Mo 1 3840 [1; 1; 1; 1; 1]; Mo (-9) 20 [1; 2; 2; 2]; Mo (-151) 96 [1; 1; 2; 3]; Mo (-21) 32 [1; 1; 1; 4]; Mo 2675 56 [3; 3; 3]; Mo 625 2 [2; 3; 4]; Mo 3185 16 [1; 4; 4]; Mo 3591 20 [2; 2; 5]; Mo 3357 8 [1; 3; 5]; Mo 20097 40 [1; 2; 6]; Mo 7293 20 [1; 1; 7]; Mo (-74844) 1 [5; 6]; Mo (-81081) 1 [4; 7]; Mo (-190905) 2 [3; 8]; Mo (-503217) 4 [2; 9]; Mo (-793611) 4 [1; 10]; Mo 70204050 1 [13]]];
  [[Mo (-131) 384 [1; 1; 1; 2; 2]; Mo (-121) 576 [1; 1; 1; 1; 3]; Mo 20009 224 [2; 2; 2; 3]; Mo 17785 56 [1; 2; 3; 3]; Mo 10899 32 [1; 2; 2; 4]; Mo 2435 6 [1; 1; 3; 4]; Mo 72177 160 [1; 1; 2; 5]; Mo 6567 32 [1; 1; 1; 6]; Mo (-610225) 12 [3; 4; 4]; Mo (-214005) 4 [3; 3; 5]; Mo (-462735) 4 [2; 4; 5]; Mo (-13821507) 176 [1; 5; 5]; Mo (-505527) 4 [2; 3; 6]; Mo (-1304653) 8 [1; 4; 6]; Mo (-3077217) 40 [2; 2; 7]; Mo (-183638) 1 [1; 3; 7]; Mo (-916461) 4 [1; 2; 8]; Mo (-1391637) 8 [1; 1; 9]; Mo 40135095 1 [6; 7]; Mo 42567525 1 [5; 8]; Mo 47987940 1 [4; 9]; Mo 58135155 1 [3; 10]; Mo 310301901 4 [2; 11]; Mo 502504989 4 [1; 12]]];
  [[Mo 1 256 [1; 1; 1; 1; 2]; Mo (-3021) 2800 [2; 2; 2; 2]; Mo (-17149) 1120 [1; 2; 2; 3]; Mo (-6071) 672 [1; 1; 3; 3]; Mo (-9311) 480 [1; 1; 2; 4]; Mo (-271) 32 [1; 1; 1; 5]; Mo 27145 11 [3; 3; 4]; Mo 470589 176 [2; 4; 4]; Mo 491895 88 [2; 3; 5]; Mo 312753 44 [1; 4; 5]; Mo 130473 40 [2; 2; 6]; Mo 30633 4 [1; 3; 6]; Mo 368121 40 [1; 2; 7]; Mo 53469 8 [1; 1; 8]; Mo (-21411621) 26 [6; 6]; Mo (-1702134) 1 [5; 7]; Mo (-1877820) 1 [4; 8]; Mo (-2222070) 1 [3; 9]; Mo (-11636721) 4 [2; 10]; Mo (-18185223) 4 [1; 11]]]]].
(** matslise_formulas.cpp: tDelta(7, 0..16) *)
Definition tdelta_row7 : list (list hentry) := [
 [[];
  [];
  [];
  []];
 [[];
  [];
  [];
  []];
 [[];
  [];
  [];
  []];
 [[];
  [];
  [];
  []];
 [[];
  [];
  [];
  []];
 [[];
  [];
  [];
  []];
 [[];
  [];
  [];
  []];
 [[];
  [];
  [];
  []];
 [[];
  [];
  [];
  []];
 [[];
  [];
  [];
  []];
 [[];
  [];
  [];
  []];
 [[];
  [];
  [];
  []];
 [[];
  [];
  [];
  []];
 [[[Mo (-1) 30 [1; 1; 1; 2]; Mo 63 16 [2; 2; 3]; Mo 545 112 [1; 3; 3]; Mo 87 8 [1; 2; 4]; Mo 129 16 [1; 1; 5]; Mo (-2205) 2 [4; 5]; Mo (-2475) 2 [3; 6]; Mo (-6435) 4 [2; 7]; Mo (-10725) 4 [1; 8]; Mo 1322685 2 [11]]; [Mo 79 160 [1; 1; 2; 2]; Mo 13 32 [1; 1; 1; 3]; Mo (-6045) 112 [2; 3; 3]; Mo (-963) 16 [2; 2; 4]; Mo (-595) 4 [1; 3; 4]; Mo (-711) 4 [1; 2; 5]; Mo (-2211) 16 [1; 1; 6]; Mo 19845 2 [5; 5]; Mo 20790 1 [4; 6]; Mo 96525 4 [3; 7]; Mo 32175 1 [2; 8]; Mo 109395 2 [1; 9]; Mo (-30421755) 2 [12]]; [Mo 1 384 [1; 1; 1; 1; 1]; Mo (-67) 40 [1; 2; 2; 2]; Mo (-371) 60 [1; 1; 2; 3]; Mo (-17) 6 [1; 1; 1; 4]; Mo 14295 112 [3; 3; 3]; Mo 3411 4 [2; 3; 4]; Mo 9365 16 [1; 4; 4]; Mo 8127 16 [2; 2; 5]; Mo 10019 8 [1; 3; 5]; Mo 1566 1 [1; 2; 6]; Mo 20097 16 [1; 1; 7]; Mo (-193410) 1 [5; 6]; Mo (-838035) 4 [4; 7]; Mo (-997425) 4 [3; 8]; Mo (-338910) 1 [2; 9]; Mo (-583440) 1 [1; 10]; Mo 182530530 1 [13]]; [Mo (-5) 128 [1; 1; 1; 1; 2]; Mo 237 160 [2; 2; 2; 2]; Mo 1739 80 [1; 2; 2; 3]; Mo 1277 96 [1; 1; 3; 3]; Mo 2843 96 [1; 1; 2; 4]; Mo 231 16 [1; 1; 1; 5]; Mo (-234035) 112 [3; 3; 4]; Mo (-37185) 16 [2; 4; 4]; Mo (-9933) 2 [2; 3; 5]; Mo (-27115) 4 [1; 4; 5]; Mo (-49473) 16 [2; 2; 6]; Mo (-60711) 8 [1; 3; 6]; Mo (-9801) 1 [1; 2; 7]; Mo (-128271) 16 [1; 1; 8]; Mo 1299375 2 [6; 6]; Mo 5374215 4 [5; 7]; Mo 5969535 4 [4; 8]; Mo 7243665 4 [3; 9]; Mo 4995705 2 [2; 10]; Mo 17320875 4 [1; 11]]];
  [[Mo 1 1152 [1; 1; 1; 1]; Mo (-61) 560 [2; 2; 2]; Mo (-43) 56 [1; 2; 3]; Mo (-25) 48 [1; 1; 4]; Mo 805 24 [4; 4]; Mo 285 4 [3; 5]; Mo 363 4 [2; 6]; Mo 143 1 [1; 7]; Mo (-62985) 2 [10]]; [Mo (-1) 30 [1; 1; 1; 2]; Mo 63 16 [2; 2; 3]; Mo 545 112 [1; 3; 3]; Mo 87 8 [1; 2; 4]; Mo 129 16 [1; 1; 5]; Mo (-2205) 2 [4; 5]; Mo (-2475) 2 [3; 6]; Mo (-6435) 4 [2; 7]; Mo (-10725) 4 [1; 8]; Mo 1322685 2 [11]]; [Mo 113 480 [1; 1; 2; 2]; Mo 19 96 [1; 1; 1; 3]; Mo (-709) 28 [2; 3; 3]; Mo (-1573) 56 [2; 2; 4]; Mo (-1985) 28 [1; 3; 4]; Mo (-169) 2 [1; 2; 5]; Mo (-267) 4 [1; 1; 6]; Mo 37695 8 [5; 5]; Mo 39465 4 [4; 6]; Mo 45837 4 [3; 7]; Mo 30459 2 [2; 8]; Mo 105105 4 [1; 9]; Mo (-14549535) 2 [12]]; [Mo 1 1152 [1; 1; 1; 1; 1]; Mo (-79) 160 [1; 2; 2; 2]; Mo (-301) 160 [1; 1; 2; 3]; Mo (-8) 9 [1; 1; 1; 4]; Mo 1055 28 [3; 3; 3]; Mo 503 2 [2; 3; 4]; Mo 8495 48 [1; 4; 4]; Mo 1197 8 [2; 2; 5]; Mo 3029 8 [1; 3; 5]; Mo 3783 8 [1; 2; 6]; Mo 3113 8 [1; 1; 7]; Mo (-58275) 1 [5; 6]; Mo (-126225) 2 [4; 7]; Mo (-75075) 1 [3; 8]; Mo (-203775) 2 [2; 9]; Mo (-717145) 4 [1; 10]; Mo 111546435 2 [13]]];
  [[Mo (-1133) 2240 [1; 1; 2; 2]; Mo (-143) 336 [1; 1; 1; 3]; Mo 6045 112 [2; 3; 3]; Mo 951 16 [2; 2; 4]; Mo 605 4 [1; 3; 4]; Mo 180 1 [1; 2; 5]; Mo 2277 16 [1; 1; 6]; Mo (-874125) 88 [5; 5]; Mo (-83055) 4 [4; 6]; Mo (-24180) 1 [3; 7]; Mo (-128115) 4 [2; 8]; Mo (-222105) 4 [1; 9]; Mo 30421755 2 [12]]; [Mo (-13) 2304 [1; 1; 1; 1; 1]; Mo 403 112 [1; 2; 2; 2]; Mo 2977 224 [1; 1; 2; 3]; Mo 195 32 [1; 1; 1; 4]; Mo (-30225) 112 [3; 3; 3]; Mo (-7215) 4 [2; 3; 4]; Mo (-59605) 48 [1; 4; 4]; Mo (-17199) 16 [2; 2; 5]; Mo (-21255) 8 [1; 3; 5]; Mo (-13299) 4 [1; 2; 6]; Mo (-42757) 16 [1; 1; 7]; Mo 405405 1 [5; 6]; Mo 1756755 4 [4; 7]; Mo 2091375 4 [3; 8]; Mo 1422135 2 [2; 9]; Mo 2456415 2 [1; 10]; Mo (-760543875) 2 [13]]; [Mo 1511 11520 [1; 1; 1; 1; 2]; Mo (-1637) 320 [2; 2; 2; 2]; Mo (-82843) 1120 [1; 2; 2; 3]; Mo (-10011) 224 [1; 1; 3; 3]; Mo (-67037) 672 [1; 1; 2; 4]; Mo (-2309) 48 [1; 1; 1; 5]; Mo 390945 56 [3; 3; 4]; Mo 93445 12 [2; 4; 4]; Mo 66525 4 [2; 3; 5]; Mo 45055 2 [1; 4; 5]; Mo 83091 8 [2; 2; 6]; Mo 100881 4 [1; 3; 6]; Mo 130603 4 [1; 2; 7]; Mo 105963 4 [1; 1; 8]; Mo (-17090325) 8 [6; 6]; Mo (-17670345) 4 [5; 7]; Mo (-9817665) 2 [4; 8]; Mo (-23828805) 4 [3; 9]; Mo (-32954415) 4 [2; 10]; Mo (-56749485) 4 [1; 11]]; [Mo (-83) 96 [1; 1; 1; 2; 2]; Mo (-1183) 2304 [1; 1; 1; 1; 3]; Mo 21827 224 [2; 2; 2; 3]; Mo 78039 224 [1; 2; 3; 3]; Mo 21685 56 [1; 2; 2; 4]; Mo 9700 21 [1; 1; 3; 4]; Mo 8789 16 [1; 1; 2; 5]; Mo 8731 32 [1; 1; 1; 6]; Mo (-996515) 24 [3; 4; 4]; Mo (-354705) 8 [3; 3; 5]; Mo (-394485) 4 [2; 4; 5]; Mo (-1125075) 16 [1; 5; 5]; Mo (-220467) 2 [2; 3; 6]; Mo (-1177545) 8 [1; 4; 6]; Mo (-567567) 8 [2; 2; 7]; Mo (-1362647) 8 [1; 3; 7]; Mo (-1804803) 8 [1; 2; 8]; Mo (-735735) 4 [1; 1; 9]; Mo 32026995 1 [6; 7]; Mo 33963930 1 [5; 8]; Mo 38481300 1 [4; 9]; Mo 47447595 1 [3; 10]; Mo 66323205 1 [2; 11]; Mo 455444535 4 [1; 12]]];
  [[Mo 1 30 [1; 1; 1; 2]; Mo (-63) 16 [2; 2; 3]; Mo (-545) 112 [1; 3; 3]; Mo (-87) 8 [1; 2; 4]; Mo (-129) 16 [1; 1; 5]; Mo 2205 2 [4; 5]; Mo 2475 2 [3; 6]; Mo 6435 4 [2; 7]; Mo 10725 4 [1; 8]; Mo (-1322685) 2 [11]]; [Mo (-79) 160 [1; 1; 2; 2]; Mo (-13) 32 [1; 1; 1; 3]; Mo 6045 112 [2; 3; 3]; Mo 963 16 [2; 2; 4]; Mo 595 4 [1; 3; 4]; Mo 711 4 [1; 2; 5]; Mo 2211 16 [1; 1; 6]; Mo (-19845) 2 [5; 5]; Mo (-20790) 1 [4; 6]; Mo (-96525) 4 [3; 7]; Mo (-32175) 1 [2; 8]; Mo (-109395) 2 [1; 9]; Mo 30421755 2 [12]]; [Mo (-1) 384 [1; 1; 1; 1; 1]; Mo 67 40 [1; 2; 2; 2]; Mo 371 60 [1; 1; 2; 3]; Mo 17 6 [1; 1; 1; 4]; Mo (-14295) 112 [3; 3; 3]; Mo (-3411) 4 [2; 3; 4]; Mo (-9365) 16 [1; 4; 4]; Mo (-8127) 16 [2; 2; 5]; Mo (-10019) 8 [1; 3; 5]; Mo (-1566) 1 [1; 2; 6]; Mo (-20097) 16 [1; 1; 7]; Mo 193410 1 [5; 6]; Mo 838035 4 [4; 7]; Mo 997425 4 [3; 8]; Mo 338910 1 [2; 9]; Mo 583440 1 [1; 10]; Mo (-182530530) 1 [13]]; [Mo 5 128 [1; 1; 1; 1; 2]; Mo (-237) 160 [2; 2; 2; 2]; Mo (-1739) 80 [1; 2; 2; 3]; Mo (-1277) 96 [1; 1; 3; 3]; Mo (-2843) 96 [1; 1; 2; 4]; Mo (-231) 16 [1; 1; 1; 5]; Mo 234035 112 [3; 3; 4]; Mo 37185 16 [2; 4; 4]; Mo 9933 2 [2; 3; 5]; Mo 27115 4 [1; 4; 5]; Mo 49473 16 [2; 2; 6]; Mo 60711 8 [1; 3; 6]; Mo 9801 1 [1; 2; 7]; Mo 128271 16 [1; 1; 8]; Mo (-1299375) 2 [6; 6]; Mo (-5374215) 4 [5; 7]; Mo (-5969535) 4 [4; 8]; Mo (-7243665) 4 [3; 9]; Mo (-4995705) 2 [2; 10]; Mo (-17320875) 4 [1; 11]]]];
 [[[Mo (-1133) 2240 [1; 1; 2; 2]; Mo (-143) 336 [1; 1; 1; 3]; Mo 6045 112 [2; 3; 3]; Mo 951 16 [2; 2; 4]; Mo 605 4 [1; 3; 4]; Mo 180 1 [1; 2; 5]; Mo 2277 16 [1; 1; 6]; Mo (-874125) 88 [5; 5]; Mo (-83055) 4 [4; 6]; Mo (-24180) 1 [3; 7]; Mo (-128115) 4 [2; 8]; Mo (-222105) 4 [1; 9]; Mo 30421755 2 [12]]; [Mo (-13) 2304 [1; 1; 1; 1; 1]; Mo 403 112 [1; 2; 2; 2]; Mo 2977 224 [1; 1; 2; 3]; Mo 195 32 [1; 1; 1; 4]; Mo (-30225) 112 [3; 3; 3]; Mo (-7215) 4 [2; 3; 4]; Mo (-59605) 48 [1; 4; 4]; Mo (-17199) 16 [2; 2; 5]; Mo (-21255) 8 [1; 3; 5]; Mo (-13299) 4 [1; 2; 6]; Mo (-42757) 16 [1; 1; 7]; Mo 405405 1 [5; 6]; Mo 1756755 4 [4; 7]; Mo 2091375 4 [3; 8]; Mo 1422135 2 [2; 9]; Mo 2456415 2 [1; 10]; Mo (-760543875) 2 [13]]; [Mo 1511 11520 [1; 1; 1; 1; 2]; Mo (-1637) 320 [2; 2; 2; 2]; Mo (-82843) 1120 [1; 2; 2; 3]; Mo (-10011) 224 [1; 1; 3; 3]; Mo (-67037) 672 [1; 1; 2; 4]; Mo (-2309) 48 [1; 1; 1; 5]; Mo 390945 56 [3; 3; 4]; Mo 93445 12 [2; 4; 4]; Mo 66525 4 [2; 3; 5]; Mo 45055 2 [1; 4; 5]; Mo 83091 8 [2; 2; 6]; Mo 100881 4 [1; 3; 6]; Mo 130603 4 [1; 2; 7]; Mo 105963 4 [1; 1; 8]; Mo (-17090325) 8 [6; 6]; Mo (-17670345) 4 [5; 7]; Mo (-9817665) 2 [4; 8]; Mo (-23828805) 4 [3; 9]; Mo (-32954415) 4 [2; 10]; Mo (-56749485) 4 [1; 11]]];
  [[Mo 1 30 [1; 1; 1; 2]; Mo (-63) 16 [2; 2; 3]; Mo (-545) 112 [1; 3; 3]; Mo (-87) 8 [1; 2; 4]; Mo (-129) 16 [1; 1; 5]; Mo 2205 2 [4; 5]; Mo 2475 2 [3; 6]; Mo 6435 4 [2; 7]; Mo 10725 4 [1; 8]; Mo (-1322685) 2 [11]]; [Mo (-79) 160 [1; 1; 2; 2]; Mo (-13) 32 [1; 1; 1; 3]; Mo 6045 112 [2; 3; 3]; Mo 963 16 [2; 2; 4]; Mo 595 4 [1; 3; 4]; Mo 711 4 [1; 2; 5]; Mo 2211 16 [1; 1; 6]; Mo (-19845) 2 [5; 5]; Mo (-20790) 1 [4; 6]; Mo (-96525) 4 [3; 7]; Mo (-32175) 1 [2; 8]; Mo (-109395) 2 [1; 9]; Mo 30421755 2 [12]]; [Mo (-1) 384 [1; 1; 1; 1; 1]; Mo 67 40 [1; 2; 2; 2]; Mo 371 60 [1; 1; 2; 3]; Mo 17 6 [1; 1; 1; 4]; Mo (-14295) 112 [3; 3; 3]; Mo (-3411) 4 [2; 3; 4]; Mo (-9365) 16 [1; 4; 4]; Mo (-8127) 16 [2; 2; 5]; Mo (-10019) 8 [1; 3; 5]; Mo (-1566) 1 [1; 2; 6]; Mo (-20097) 16 [1; 1; 7]; Mo 193410 1 [5; 6]; Mo 838035 4 [4; 7]; Mo 997425 4 [3; 8]; Mo 338910 1 [2; 9]; Mo 583440 1 [1; 10]; Mo (-182530530) 1 [13]]];
  [[Mo 13 2304 [1; 1; 1; 1; 1]; Mo (-403) 112 [1; 2; 2; 2]; Mo (-2977) 224 [1; 1; 2; 3]; Mo (-195) 32 [1; 1; 1; 4]; Mo 30225 112 [3; 3; 3]; Mo 7215 4 [2; 3; 4]; Mo 59605 48 [1; 4; 4]; Mo 17199 16 [2; 2; 5]; Mo 21255 8 [1; 3; 5]; Mo 13299 4 [1; 2; 6]; Mo 42757 16 [1; 1; 7]; Mo (-405405) 1 [5; 6]; Mo (-1756755) 4 [4; 7]; Mo (-2091375) 4 [3; 8]; Mo (-1422135) 2 [2; 9]; Mo (-2456415) 2 [1; 10]; Mo 760543875 2 [13]]; [Mo (-343) 1280 [1; 1; 1; 1; 2]; Mo 1209 112 [2; 2; 2; 2]; Mo 34803 224 [1; 2; 2; 3]; Mo 1305 14 [1; 1; 3; 3]; Mo 3323 16 [1; 1; 2; 4]; Mo 1587 16 [1; 1; 1; 5]; Mo (-234975) 16 [3; 3; 4]; Mo (-261625) 16 [2; 4; 4]; Mo (-139815) 4 [2; 3; 5]; Mo (-188055) 4 [1; 4; 5]; Mo (-348777) 16 [2; 2; 6]; Mo (-421245) 8 [1; 3; 6]; Mo (-272415) 4 [1; 2; 7]; Mo (-877305) 16 [1; 1; 8]; Mo 4459455 1 [6; 6]; Mo 36891855 4 [5; 7]; Mo 20495475 2 [4; 8]; Mo 49774725 4 [3; 9]; Mo 17194905 1 [2; 10]; Mo 117718965 4 [1; 11]]; [Mo 1333 480 [1; 1; 1; 2; 2]; Mo 13 8 [1; 1; 1; 1; 3]; Mo (-36375) 112 [2; 2; 2; 3]; Mo (-128987) 112 [1; 2; 3; 3]; Mo (-71427) 56 [1; 2; 2; 4]; Mo (-168785) 112 [1; 1; 3; 4]; Mo (-28565) 16 [1; 1; 2; 5]; Mo (-6987) 8 [1; 1; 1; 6]; Mo 2196935 16 [3; 4; 4]; Mo 2346435 16 [3; 3; 5]; Mo 2602425 8 [2; 4; 5]; Mo 3672795 16 [1; 5; 5]; Mo 1454859 4 [2; 3; 6]; Mo 480555 1 [1; 4; 6]; Mo 3736161 16 [2; 2; 7]; Mo 4450017 8 [1; 3; 7]; Mo 2939079 4 [1; 2; 8]; Mo 9470175 16 [1; 1; 9]; Mo (-417972555) 4 [6; 7]; Mo (-443287845) 4 [5; 8]; Mo (-502348275) 4 [4; 9]; Mo (-619663005) 4 [3; 10]; Mo (-864469125) 4 [2; 11]; Mo (-1469503035) 4 [1; 12]]];
  [[Mo 1079 2240 [1; 1; 2; 2]; Mo 65 168 [1; 1; 1; 3]; Mo (-6045) 112 [2; 3; 3]; Mo (-975) 16 [2; 2; 4]; Mo (-585) 4 [1; 3; 4]; Mo (-351) 2 [1; 2; 5]; Mo (-2145) 16 [1; 1; 6]; Mo 872235 88 [5; 5]; Mo 83265 4 [4; 6]; Mo 48165 2 [3; 7]; Mo 129285 4 [2; 8]; Mo 215475 4 [1; 9]; Mo (-30421755) 2 [12]]; [Mo 11 2304 [1; 1; 1; 1; 1]; Mo (-977) 280 [1; 2; 2; 2]; Mo (-2805) 224 [1; 1; 2; 3]; Mo (-535) 96 [1; 1; 1; 4]; Mo 30225 112 [3; 3; 3]; Mo 7215 4 [2; 3; 4]; Mo 57995 48 [1; 4; 4]; Mo 17199 16 [2; 2; 5]; Mo 20685 8 [1; 3; 5]; Mo 3234 1 [1; 2; 6]; Mo 40469 16 [1; 1; 7]; Mo (-405405) 1 [5; 6]; Mo (-1756755) 4 [4; 7]; Mo (-2091375) 4 [3; 8]; Mo (-1422135) 2 [2; 9]; Mo (-1196715) 1 [1; 10]; Mo 760543875 2 [13]]; [Mo (-1309) 11520 [1; 1; 1; 1; 2]; Mo 1579 320 [2; 2; 2; 2]; Mo 79529 1120 [1; 2; 2; 3]; Mo 9505 224 [1; 1; 3; 3]; Mo 63023 672 [1; 1; 2; 4]; Mo 1061 24 [1; 1; 1; 5]; Mo (-391365) 56 [3; 3; 4]; Mo (-185485) 24 [2; 4; 4]; Mo (-16533) 1 [2; 3; 5]; Mo (-22005) 1 [1; 4; 5]; Mo (-81915) 8 [2; 2; 6]; Mo (-98595) 4 [1; 3; 6]; Mo (-63349) 2 [1; 2; 7]; Mo (-100815) 4 [1; 1; 8]; Mo 17088435 8 [6; 6]; Mo 17672655 4 [5; 7]; Mo 4907760 1 [4; 8]; Mo 23841675 4 [3; 9]; Mo 32755515 4 [2; 10]; Mo 55489785 4 [1; 11]]]];
 [[[Mo 7 2304 [1; 1; 1; 1; 1]; Mo (-31) 16 [1; 2; 2; 2]; Mo (-229) 32 [1; 1; 2; 3]; Mo (-105) 32 [1; 1; 1; 4]; Mo 2325 16 [3; 3; 3]; Mo 3885 4 [2; 3; 4]; Mo 32095 48 [1; 4; 4]; Mo 9261 16 [2; 2; 5]; Mo 11445 8 [1; 3; 5]; Mo 7161 4 [1; 2; 6]; Mo 23023 16 [1; 1; 7]; Mo (-218295) 1 [5; 6]; Mo (-945945) 4 [4; 7]; Mo (-1126125) 4 [3; 8]; Mo (-765765) 2 [2; 9]; Mo (-1322685) 2 [1; 10]; Mo 409523625 2 [13]]; [Mo (-559) 3840 [1; 1; 1; 1; 2]; Mo 93 16 [2; 2; 2; 2]; Mo 1341 16 [1; 2; 2; 3]; Mo 11285 224 [1; 1; 3; 3]; Mo 449 4 [1; 1; 2; 4]; Mo 1719 32 [1; 1; 1; 5]; Mo (-126525) 16 [3; 3; 4]; Mo (-140875) 16 [2; 4; 4]; Mo (-75285) 4 [2; 3; 5]; Mo (-50715) 2 [1; 4; 5]; Mo (-187803) 16 [2; 2; 6]; Mo (-227205) 8 [1; 3; 6]; Mo (-293865) 8 [1; 2; 7]; Mo (-474045) 16 [1; 1; 8]; Mo 2401245 1 [6; 6]; Mo 19864845 4 [5; 7]; Mo 11036025 2 [4; 8]; Mo 26801775 4 [3; 9]; Mo 9258795 1 [2; 10]; Mo 15872220 1 [1; 11]]];
  [[Mo 83 320 [1; 1; 2; 2]; Mo 5 24 [1; 1; 1; 3]; Mo (-465) 16 [2; 3; 3]; Mo (-525) 16 [2; 2; 4]; Mo (-315) 4 [1; 3; 4]; Mo (-189) 2 [1; 2; 5]; Mo (-1155) 16 [1; 1; 6]; Mo 469665 88 [5; 5]; Mo 44835 4 [4; 6]; Mo 25935 2 [3; 7]; Mo 69615 4 [2; 8]; Mo 116025 4 [1; 9]; Mo (-16380945) 2 [12]]; [Mo 1 384 [1; 1; 1; 1; 1]; Mo (-2109) 1120 [1; 2; 2; 2]; Mo (-1517) 224 [1; 1; 2; 3]; Mo (-145) 48 [1; 1; 1; 4]; Mo 2325 16 [3; 3; 3]; Mo 3885 4 [2; 3; 4]; Mo 5215 8 [1; 4; 4]; Mo 9261 16 [2; 2; 5]; Mo 1395 1 [1; 3; 5]; Mo 13959 8 [1; 2; 6]; Mo 21879 16 [1; 1; 7]; Mo (-218295) 1 [5; 6]; Mo (-945945) 4 [4; 7]; Mo (-1126125) 4 [3; 8]; Mo (-765765) 2 [2; 9]; Mo (-2582385) 4 [1; 10]; Mo 409523625 2 [13]]];
  [[Mo 523 3840 [1; 1; 1; 1; 2]; Mo (-3657) 640 [2; 2; 2; 2]; Mo (-165) 2 [1; 2; 2; 3]; Mo (-22075) 448 [1; 1; 3; 3]; Mo (-3495) 32 [1; 1; 2; 4]; Mo (-1653) 32 [1; 1; 1; 5]; Mo 1394225 176 [3; 3; 4]; Mo 1542765 176 [2; 4; 4]; Mo 1654065 88 [2; 3; 5]; Mo 2208675 88 [1; 4; 5]; Mo 186543 16 [2; 2; 6]; Mo 112545 4 [1; 3; 6]; Mo 36270 1 [1; 2; 7]; Mo 463515 16 [1; 1; 8]; Mo (-249656715) 104 [6; 6]; Mo (-4967865) 1 [5; 7]; Mo (-22061025) 4 [4; 8]; Mo (-13414275) 2 [3; 9]; Mo (-36933435) 4 [2; 10]; Mo (-31439205) 2 [1; 11]]; [Mo (-3313) 1120 [1; 1; 1; 2; 2]; Mo (-3079) 1792 [1; 1; 1; 1; 3]; Mo 11577 32 [2; 2; 2; 3]; Mo 287295 224 [1; 2; 3; 3]; Mo 11289 8 [1; 2; 2; 4]; Mo 26615 16 [1; 1; 3; 4]; Mo 15651 8 [1; 1; 2; 5]; Mo 30261 32 [1; 1; 1; 6]; Mo (-2475725) 16 [3; 4; 4]; Mo (-2644425) 16 [3; 3; 5]; Mo (-2917215) 8 [2; 4; 5]; Mo (-11250225) 44 [1; 5; 5]; Mo (-1631025) 4 [2; 3; 6]; Mo (-4282635) 8 [1; 4; 6]; Mo (-4166019) 16 [2; 2; 7]; Mo (-2478645) 4 [1; 3; 7]; Mo (-6511635) 8 [1; 2; 8]; Mo (-10399155) 16 [1; 1; 9]; Mo 468242775 4 [6; 7]; Mo 496621125 4 [5; 8]; Mo 562837275 4 [4; 9]; Mo 694409625 4 [3; 10]; Mo 964237365 4 [2; 11]; Mo 407183490 1 [1; 12]]];
  [[Mo (-5) 2304 [1; 1; 1; 1; 1]; Mo 64 35 [1; 2; 2; 2]; Mo 1431 224 [1; 1; 2; 3]; Mo 265 96 [1; 1; 1; 4]; Mo (-2325) 16 [3; 3; 3]; Mo (-3885) 4 [2; 3; 4]; Mo (-30485) 48 [1; 4; 4]; Mo (-9261) 16 [2; 2; 5]; Mo (-10875) 8 [1; 3; 5]; Mo (-3399) 2 [1; 2; 6]; Mo (-20735) 16 [1; 1; 7]; Mo 218295 1 [5; 6]; Mo 945945 4 [4; 7]; Mo 1126125 4 [3; 8]; Mo 765765 2 [2; 9]; Mo 629850 1 [1; 10]; Mo (-409523625) 2 [13]]; [Mo 421 3840 [1; 1; 1; 1; 2]; Mo (-192) 35 [2; 2; 2; 2]; Mo (-543) 7 [1; 2; 2; 3]; Mo (-10195) 224 [1; 1; 3; 3]; Mo (-1597) 16 [1; 1; 2; 4]; Mo (-1461) 32 [1; 1; 1; 5]; Mo 126525 16 [3; 3; 4]; Mo 139265 16 [2; 4; 4]; Mo 37215 2 [2; 3; 5]; Mo 24255 1 [1; 4; 5]; Mo 183447 16 [2; 2; 6]; Mo 217305 8 [1; 3; 6]; Mo 277563 8 [1; 2; 7]; Mo 431145 16 [1; 1; 8]; Mo (-2401245) 1 [6; 6]; Mo (-19864845) 4 [5; 7]; Mo (-11036025) 2 [4; 8]; Mo (-26801775) 4 [3; 9]; Mo (-18328635) 2 [2; 10]; Mo (-30421755) 2 [1; 11]]]];
 [[[Mo 77 1440 [1; 1; 1; 1; 2]; Mo (-1219) 560 [2; 2; 2; 2]; Mo (-3541) 112 [1; 2; 2; 3]; Mo (-6385) 336 [1; 1; 3; 3]; Mo (-337) 8 [1; 1; 2; 4]; Mo (-321) 16 [1; 1; 1; 5]; Mo 199175 66 [3; 3; 4]; Mo 73465 22 [2; 4; 4]; Mo 78765 11 [2; 3; 5]; Mo 211505 22 [1; 4; 5]; Mo 8883 2 [2; 2; 6]; Mo 21555 2 [1; 3; 6]; Mo 55575 4 [1; 2; 7]; Mo 44655 4 [1; 1; 8]; Mo (-11888415) 13 [6; 6]; Mo (-1892520) 1 [5; 7]; Mo (-2101050) 1 [4; 8]; Mo (-2555100) 1 [3; 9]; Mo (-3517470) 1 [2; 10]; Mo (-12039825) 2 [1; 11]]];
  [[Mo (-1) 1152 [1; 1; 1; 1; 1]; Mo 393 560 [1; 2; 2; 2]; Mo 415 168 [1; 1; 2; 3]; Mo 155 144 [1; 1; 1; 4]; Mo (-775) 14 [3; 3; 3]; Mo (-370) 1 [2; 3; 4]; Mo (-5845) 24 [1; 4; 4]; Mo (-441) 2 [2; 2; 5]; Mo (-2085) 4 [1; 3; 5]; Mo (-2607) 4 [1; 2; 6]; Mo (-1001) 2 [1; 1; 7]; Mo 83160 1 [5; 6]; Mo 90090 1 [4; 7]; Mo 107250 1 [3; 8]; Mo 145860 1 [2; 9]; Mo 482885 2 [1; 10]; Mo (-78004500) 1 [13]]];
  [[Mo 1171 1120 [1; 1; 1; 2; 2]; Mo 1223 2016 [1; 1; 1; 1; 3]; Mo (-7529) 56 [2; 2; 2; 3]; Mo (-3355) 7 [1; 2; 3; 3]; Mo (-4183) 8 [1; 2; 2; 4]; Mo (-1855) 3 [1; 1; 3; 4]; Mo (-5763) 8 [1; 1; 2; 5]; Mo (-2761) 8 [1; 1; 1; 6]; Mo 353675 6 [3; 4; 4]; Mo 125925 2 [3; 3; 5]; Mo 137970 1 [2; 4; 5]; Mo 4243995 44 [1; 5; 5]; Mo 154275 1 [2; 3; 6]; Mo 403935 2 [1; 4; 6]; Mo 97812 1 [2; 2; 7]; Mo 233740 1 [1; 3; 7]; Mo 304785 1 [1; 2; 8]; Mo 241995 1 [1; 1; 9]; Mo (-44594550) 1 [6; 7]; Mo (-47297250) 1 [5; 8]; Mo (-53603550) 1 [4; 9]; Mo (-66134250) 1 [3; 10]; Mo (-91265265) 1 [2; 11]; Mo (-153668865) 1 [1; 12]]];
  [[Mo (-101) 2880 [1; 1; 1; 1; 2]; Mo 1139 560 [2; 2; 2; 2]; Mo 1583 56 [1; 2; 2; 3]; Mo 1375 84 [1; 1; 3; 3]; Mo 285 8 [1; 1; 2; 4]; Mo 127 8 [1; 1; 1; 5]; Mo (-198475) 66 [3; 3; 4]; Mo (-145285) 44 [2; 4; 4]; Mo (-154815) 22 [2; 3; 5]; Mo (-99260) 11 [1; 4; 5]; Mo (-4320) 1 [2; 2; 6]; Mo (-10095) 1 [1; 3; 6]; Mo (-25623) 2 [1; 2; 7]; Mo (-9750) 1 [1; 1; 8]; Mo 11895345 13 [6; 6]; Mo 1891260 1 [5; 7]; Mo 2103150 1 [4; 8]; Mo 2550000 1 [3; 9]; Mo 3473865 1 [2; 10]; Mo 5663805 1 [1; 11]]]]].
(** matslise_formulas.cpp: tDelta(8, 0..16) *)
Definition tdelta_row8 : list (list hentry) := [
 [[];
  [];
  [];
  []];
 [[];
  [];
  [];
  []];
 [[];
  [];
  [];
  []];
 [[];
  [];
  [];
  []];
 [[];
  [];
  [];
  []];
 [[];
  [];
  [];
  []];
 [[];
  [];
  [];
  []];
 [[];
  [];
  [];
  []];
 [[];
  [];
  [];
  []];
 [[];
  [];
  [];
  []];
 [[];
  [];
  [];
  []];
 [[];
  [];
  [];
  []];
 [[];
  [];
  [];
  []];
 [[];
  [];
  [];
  []];
 [[];
  [];
  [];
  []];
 [[[Mo (-1) 2304 [1; 1; 1; 1; 1]; Mo 31 112 [1; 2; 2; 2]; Mo 229 224 [1; 1; 2; 3]; Mo 15 32 [1; 1; 1; 4]; Mo (-2325) 112 [3; 3; 3]; Mo (-555) 4 [2; 3; 4]; Mo (-4585) 48 [1; 4; 4]; Mo (-1323) 16 [2; 2; 5]; Mo (-1635) 8 [1; 3; 5]; Mo (-1023) 4 [1; 2; 6]; Mo (-3289) 16 [1; 1; 7]; Mo 31185 1 [5; 6]; Mo 135135 4 [4; 7]; Mo 160875 4 [3; 8]; Mo 109395 2 [2; 9]; Mo 188955 2 [1; 10]; Mo (-58503375) 2 [13]]; [Mo 89 3840 [1; 1; 1; 1; 2]; Mo (-93) 112 [2; 2; 2; 2]; Mo (-2745) 224 [1; 2; 2; 3]; Mo (-845) 112 [1; 1; 3; 3]; Mo (-269) 16 [1; 1; 2; 4]; Mo (-33) 4 [1; 1; 1; 5]; Mo 18075 16 [3; 3; 4]; Mo 20125 16 [2; 4; 4]; Mo 10755 4 [2; 3; 5]; Mo 14805 4 [1; 4; 5]; Mo 26829 16 [2; 2; 6]; Mo 33165 8 [1; 3; 6]; Mo 10725 2 [1; 2; 7]; Mo 70785 16 [1; 1; 8]; Mo (-343035) 1 [6; 6]; Mo (-2837835) 4 [5; 7]; Mo (-1576575) 2 [4; 8]; Mo (-3828825) 4 [3; 9]; Mo (-1322685) 1 [2; 10]; Mo (-9258795) 4 [1; 11]]];
  [[Mo (-83) 2240 [1; 1; 2; 2]; Mo (-5) 168 [1; 1; 1; 3]; Mo 465 112 [2; 3; 3]; Mo 75 16 [2; 2; 4]; Mo 45 4 [1; 3; 4]; Mo 27 2 [1; 2; 5]; Mo 165 16 [1; 1; 6]; Mo (-67095) 88 [5; 5]; Mo (-6405) 4 [4; 6]; Mo (-3705) 2 [3; 7]; Mo (-9945) 4 [2; 8]; Mo (-16575) 4 [1; 9]; Mo 2340135 2 [12]]; [Mo (-1) 2304 [1; 1; 1; 1; 1]; Mo 31 112 [1; 2; 2; 2]; Mo 229 224 [1; 1; 2; 3]; Mo 15 32 [1; 1; 1; 4]; Mo (-2325) 112 [3; 3; 3]; Mo (-555) 4 [2; 3; 4]; Mo (-4585) 48 [1; 4; 4]; Mo (-1323) 16 [2; 2; 5]; Mo (-1635) 8 [1; 3; 5]; Mo (-1023) 4 [1; 2; 6]; Mo (-3289) 16 [1; 1; 7]; Mo 31185 1 [5; 6]; Mo 135135 4 [4; 7]; Mo 160875 4 [3; 8]; Mo 109395 2 [2; 9]; Mo 188955 2 [1; 10]; Mo (-58503375) 2 [13]]];
  [[Mo (-31) 1280 [1; 1; 1; 1; 2]; Mo 3657 4480 [2; 2; 2; 2]; Mo 1383 112 [1; 2; 2; 3]; Mo 495 64 [1; 1; 3; 3]; Mo 549 32 [1; 1; 2; 4]; Mo 273 32 [1; 1; 1; 5]; Mo (-199175) 176 [3; 3; 4]; Mo (-220395) 176 [2; 4; 4]; Mo (-236295) 88 [2; 3; 5]; Mo (-329385) 88 [1; 4; 5]; Mo (-26649) 16 [2; 2; 6]; Mo (-16785) 4 [1; 3; 6]; Mo (-21645) 4 [1; 2; 7]; Mo (-72345) 16 [1; 1; 8]; Mo 35665245 104 [6; 6]; Mo 709695 1 [5; 7]; Mo 3151575 4 [4; 8]; Mo 1916325 2 [3; 9]; Mo 5276205 4 [2; 10]; Mo 2340135 1 [1; 11]]; [Mo 487 896 [1; 1; 1; 2; 2]; Mo 1795 5376 [1; 1; 1; 1; 3]; Mo (-11955) 224 [2; 2; 2; 3]; Mo (-1575) 8 [1; 2; 3; 3]; Mo (-7011) 32 [1; 2; 2; 4]; Mo (-4315) 16 [1; 1; 3; 4]; Mo (-5139) 16 [1; 1; 2; 5]; Mo (-165) 1 [1; 1; 1; 6]; Mo 353675 16 [3; 4; 4]; Mo 377775 16 [3; 3; 5]; Mo 420525 8 [2; 4; 5]; Mo 6803055 176 [1; 5; 5]; Mo 235125 4 [2; 3; 6]; Mo 323715 4 [1; 4; 6]; Mo 606177 16 [2; 2; 7]; Mo 187395 2 [1; 3; 7]; Mo 248625 2 [1; 2; 8]; Mo 1674075 16 [1; 1; 9]; Mo (-66891825) 4 [6; 7]; Mo (-70945875) 4 [5; 8]; Mo (-80405325) 4 [4; 9]; Mo (-99201375) 4 [3; 10]; Mo (-138881925) 4 [2; 11]; Mo (-245714175) 4 [1; 12]]];
  [[Mo 1 2304 [1; 1; 1; 1; 1]; Mo (-31) 112 [1; 2; 2; 2]; Mo (-229) 224 [1; 1; 2; 3]; Mo (-15) 32 [1; 1; 1; 4]; Mo 2325 112 [3; 3; 3]; Mo 555 4 [2; 3; 4]; Mo 4585 48 [1; 4; 4]; Mo 1323 16 [2; 2; 5]; Mo 1635 8 [1; 3; 5]; Mo 1023 4 [1; 2; 6]; Mo 3289 16 [1; 1; 7]; Mo (-31185) 1 [5; 6]; Mo (-135135) 4 [4; 7]; Mo (-160875) 4 [3; 8]; Mo (-109395) 2 [2; 9]; Mo (-188955) 2 [1; 10]; Mo 58503375 2 [13]]; [Mo (-89) 3840 [1; 1; 1; 1; 2]; Mo 93 112 [2; 2; 2; 2]; Mo 2745 224 [1; 2; 2; 3]; Mo 845 112 [1; 1; 3; 3]; Mo 269 16 [1; 1; 2; 4]; Mo 33 4 [1; 1; 1; 5]; Mo (-18075) 16 [3; 3; 4]; Mo (-20125) 16 [2; 4; 4]; Mo (-10755) 4 [2; 3; 5]; Mo (-14805) 4 [1; 4; 5]; Mo (-26829) 16 [2; 2; 6]; Mo (-33165) 8 [1; 3; 6]; Mo (-10725) 2 [1; 2; 7]; Mo (-70785) 16 [1; 1; 8]; Mo 343035 1 [6; 6]; Mo 2837835 4 [5; 7]; Mo 1576575 2 [4; 8]; Mo 3828825 4 [3; 9]; Mo 1322685 1 [2; 10]; Mo 9258795 4 [1; 11]]]];
 [[[Mo (-31) 1280 [1; 1; 1; 1; 2]; Mo 3657 4480 [2; 2; 2; 2]; Mo 1383 112 [1; 2; 2; 3]; Mo 495 64 [1; 1; 3; 3]; Mo 549 32 [1; 1; 2; 4]; Mo 273 32 [1; 1; 1; 5]; Mo (-199175) 176 [3; 3; 4]; Mo (-220395) 176 [2; 4; 4]; Mo (-236295) 88 [2; 3; 5]; Mo (-329385) 88 [1; 4; 5]; Mo (-26649) 16 [2; 2; 6]; Mo (-16785) 4 [1; 3; 6]; Mo (-21645) 4 [1; 2; 7]; Mo (-72345) 16 [1; 1; 8]; Mo 35665245 104 [6; 6]; Mo 709695 1 [5; 7]; Mo 3151575 4 [4; 8]; Mo 1916325 2 [3; 9]; Mo 5276205 4 [2; 10]; Mo 2340135 1 [1; 11]]];
  [[Mo 1 2304 [1; 1; 1; 1; 1]; Mo (-31) 112 [1; 2; 2; 2]; Mo (-229) 224 [1; 1; 2; 3]; Mo (-15) 32 [1; 1; 1; 4]; Mo 2325 112 [3; 3; 3]; Mo 555 4 [2; 3; 4]; Mo 4585 48 [1; 4; 4]; Mo 1323 16 [2; 2; 5]; Mo 1635 8 [1; 3; 5]; Mo 1023 4 [1; 2; 6]; Mo 3289 16 [1; 1; 7]; Mo (-31185) 1 [5; 6]; Mo (-135135) 4 [4; 7]; Mo (-160875) 4 [3; 8]; Mo (-109395) 2 [2; 9]; Mo (-188955) 2 [1; 10]; Mo 58503375 2 [13]]];
  [[Mo (-487) 896 [1; 1; 1; 2; 2]; Mo (-1795) 5376 [1; 1; 1; 1; 3]; Mo 11955 224 [2; 2; 2; 3]; Mo 1575 8 [1; 2; 3; 3]; Mo 7011 32 [1; 2; 2; 4]; Mo 4315 16 [1; 1; 3; 4]; Mo 5139 16 [1; 1; 2; 5]; Mo 165 1 [1; 1; 1; 6]; Mo (-353675) 16 [3; 4; 4]; Mo (-377775) 16 [3; 3; 5]; Mo (-420525) 8 [2; 4; 5]; Mo (-6803055) 176 [1; 5; 5]; Mo (-235125) 4 [2; 3; 6]; Mo (-323715) 4 [1; 4; 6]; Mo (-606177) 16 [2; 2; 7]; Mo (-187395) 2 [1; 3; 7]; Mo (-248625) 2 [1; 2; 8]; Mo (-1674075) 16 [1; 1; 9]; Mo 66891825 4 [6; 7]; Mo 70945875 4 [5; 8]; Mo 80405325 4 [4; 9]; Mo 99201375 4 [3; 10]; Mo 138881925 4 [2; 11]; Mo 245714175 4 [1; 12]]];
  [[Mo 17 768 [1; 1; 1; 1; 2]; Mo (-3783) 4480 [2; 2; 2; 2]; Mo (-681) 56 [1; 2; 2; 3]; Mo (-3295) 448 [1; 1; 3; 3]; Mo (-527) 32 [1; 1; 2; 4]; Mo (-255) 32 [1; 1; 1; 5]; Mo 198475 176 [3; 3; 4]; Mo 222355 176 [2; 4; 4]; Mo 236925 88 [2; 3; 5]; Mo 322035 88 [1; 4; 5]; Mo 27009 16 [2; 2; 6]; Mo 4095 1 [1; 3; 6]; Mo 21255 4 [1; 2; 7]; Mo 69225 16 [1; 1; 8]; Mo (-35686035) 104 [6; 6]; Mo (-1418445) 2 [5; 7]; Mo (-3154725) 4 [4; 8]; Mo (-956250) 1 [3; 9]; Mo (-5305275) 4 [2; 10]; Mo (-4578525) 2 [1; 11]]]]].
Definition tdelta_table : list (list (list hentry)) := [tdelta_row0; tdelta_row1; tdelta_row2; tdelta_row3; tdelta_row4; tdelta_row5; tdelta_row6; tdelta_row7; tdelta_row8].
(** matslise_formulas.cpp: tH[0..9] *)
Definition th_table : list (list hentry) := [
 [[[Mo 1 1 []]];
  [];
  [];
  [[Mo 1 1 []]]];
 [[];
  [[]; [Mo 1 1 []]];
  [[]; []; []; [Mo 1 2 [2]]; []; [Mo 1 2 [4]]; []; [Mo 1 2 [6]]; []; [Mo 1 2 [8]]; []; [Mo 1 2 [10]]; []; [Mo 1 2 [12]]; []; [Mo 1 2 [14]]];
  []];
 [[[]; []; []; [Mo (-1) 2 [1]]; []; [Mo (-1) 2 [3]]; []; [Mo (-1) 2 [5]]; []; [Mo (-1) 2 [7]]; []; [Mo (-1) 2 [9]]; []; [Mo (-1) 2 [11]]; []; [Mo (-1) 2 [13]]; []; [Mo (-1) 2 [15]]];
  [];
  [[]; []; []; [Mo (-3) 2 [2]]; []; [Mo (-1) 24 [1; 1]; Mo (-5) 1 [4]]; []; [Mo (-1) 40 [2; 2]; Mo (-21) 2 [6]]; []; [Mo (-1) 56 [3; 3]; Mo (-18) 1 [8]]; []; [Mo (-1) 72 [4; 4]; Mo (-55) 2 [10]]; []; [Mo (-1) 88 [5; 5]; Mo (-39) 1 [12]]; []; [Mo (-1) 104 [6; 6]; Mo (-105) 2 [14]]; []; [Mo (-1) 120 [7; 7]]];
  [[]; []; []; [Mo 1 2 [1]]; []; [Mo 1 2 [3]]; []; [Mo 1 2 [5]]; []; [Mo 1 2 [7]]; []; [Mo 1 2 [9]]; []; [Mo 1 2 [11]]; []; [Mo 1 2 [13]]; []; [Mo 1 2 [15]]]];
 [[[]; []; []; []; []; [Mo 5 2 [3]]; [Mo (-1) 24 [1; 1]]; [Mo 7 1 [5]]; [Mo (-1) 40 [2; 2]]; [Mo 27 2 [7]]; [Mo (-1) 56 [3; 3]]; [Mo 22 1 [9]]; [Mo (-1) 72 [4; 4]]; [Mo 65 2 [11]]; [Mo (-1) 88 [5; 5]]; [Mo 45 1 [13]]; [Mo (-1) 104 [6; 6]]; [Mo 119 2 [15]]; [Mo (-1) 120 [7; 7]]];
  [[]; []; []; []; []; [Mo (-1) 2 [2]]; []; [Mo (-1) 2 [4]]; []; [Mo (-1) 2 [6]]; []; [Mo (-1) 2 [8]]; []; [Mo (-1) 2 [10]]; []; [Mo (-1) 2 [12]]; []; [Mo (-1) 2 [14]]];
  [[]; []; []; []; []; [Mo (-7) 24 [1; 1]; Mo 35 2 [4]]; []; [Mo (-3) 20 [2; 2]; Mo (-1) 2 [1; 3]; Mo 189 2 [6]]; []; [Mo (-15) 56 [3; 3]; Mo (-1) 4 [2; 4]; Mo (-1) 2 [1; 5]; Mo 297 1 [8]]; []; [Mo (-5) 36 [4; 4]; Mo (-1) 2 [3; 5]; Mo (-1) 4 [2; 6]; Mo (-1) 2 [1; 7]; Mo 715 1 [10]]; []; [Mo (-23) 88 [5; 5]; Mo (-1) 4 [4; 6]; Mo (-1) 2 [3; 7]; Mo (-1) 4 [2; 8]; Mo (-1) 2 [1; 9]; Mo 2925 2 [12]]; []; [Mo (-7) 52 [6; 6]; Mo (-1) 2 [5; 7]; Mo (-1) 4 [4; 8]; Mo (-1) 2 [3; 9]; Mo (-1) 4 [2; 10]; Mo (-1) 2 [1; 11]; Mo 5355 2 [14]]; []; [Mo (-31) 120 [7; 7]; Mo (-1) 4 [6; 8]; Mo (-1) 2 [5; 9]; Mo (-1) 4 [4; 10]; Mo (-1) 2 [3; 11]; Mo (-1) 4 [2; 12]; Mo (-1) 2 [1; 13]]];
  [[]; []; []; []; []; [Mo (-5) 2 [3]]; [Mo (-1) 24 [1; 1]]; [Mo (-7) 1 [5]]; [Mo (-1) 40 [2; 2]]; [Mo (-27) 2 [7]]; [Mo (-1) 56 [3; 3]]; [Mo (-22) 1 [9]]; [Mo (-1) 72 [4; 4]]; [Mo (-65) 2 [11]]; [Mo (-1) 88 [5; 5]]; [Mo (-45) 1 [13]]; [Mo (-1) 104 [6; 6]]; [Mo (-119) 2 [15]]; [Mo (-1) 120 [7; 7]]]];
 [[[]; []; []; []; []; []; []; [Mo 1 2 [1; 2]; Mo (-63) 2 [5]]; [Mo (-3) 40 [2; 2]; Mo 1 4 [1; 3]]; [Mo 1 2 [2; 3]; Mo 1 2 [1; 4]; Mo (-297) 2 [7]]; [Mo 1 14 [3; 3]; Mo 1 4 [1; 5]]; [Mo 1 2 [3; 4]; Mo 1 2 [2; 5]; Mo 1 2 [1; 6]; Mo (-429) 1 [9]]; [Mo (-1) 24 [4; 4]; Mo 1 4 [3; 5]; Mo 1 4 [1; 7]]; [Mo 1 2 [4; 5]; Mo 1 2 [3; 6]; Mo 1 2 [2; 7]; Mo 1 2 [1; 8]; Mo (-975) 1 [11]]; [Mo 1 11 [5; 5]; Mo 1 4 [3; 7]; Mo 1 4 [1; 9]]; [Mo 1 2 [5; 6]; Mo 1 2 [4; 7]; Mo 1 2 [3; 8]; Mo 1 2 [2; 9]; Mo 1 2 [1; 10]; Mo (-3825) 2 [13]]; [Mo (-3) 104 [6; 6]; Mo 1 4 [5; 7]; Mo 1 4 [3; 9]; Mo 1 4 [1; 11]]; [Mo 1 2 [6; 7]; Mo 1 2 [5; 8]; Mo 1 2 [4; 9]; Mo 1 2 [3; 10]; Mo 1 2 [2; 11]; Mo 1 2 [1; 12]; Mo (-6783) 2 [15]]; [Mo 1 10 [7; 7]; Mo 1 4 [5; 9]; Mo 1 4 [3; 11]; Mo 1 4 [1; 13]]];
  [[]; []; []; []; []; []; []; [Mo (-1) 24 [1; 1]; Mo 7 2 [4]]; []; [Mo (-1) 40 [2; 2]; Mo 9 1 [6]]; []; [Mo (-1) 56 [3; 3]; Mo 33 2 [8]]; []; [Mo (-1) 72 [4; 4]; Mo 26 1 [10]]; []; [Mo (-1) 88 [5; 5]; Mo 75 2 [12]]; []; [Mo (-1) 104 [6; 6]; Mo 51 1 [14]]];
  [[]; []; []; []; []; []; []; [Mo 57 40 [2; 2]; Mo 4 1 [1; 3]; Mo (-693) 2 [6]]; []; [Mo 1 240 [1; 1; 2]; Mo 249 56 [3; 3]; Mo 13 2 [2; 4]; Mo 43 4 [1; 5]; Mo (-2574) 1 [8]]; []; [Mo (-1) 112 [2; 2; 2]; Mo 9 280 [1; 2; 3]; Mo (-1) 48 [1; 1; 4]; Mo 35 6 [4; 4]; Mo 63 4 [3; 5]; Mo 12 1 [2; 6]; Mo 41 2 [1; 7]; Mo (-10725) 1 [10]]; []; [Mo (-1) 560 [2; 3; 3]; Mo (-1) 560 [2; 2; 4]; Mo 1 42 [1; 3; 4]; Mo (-1) 48 [1; 1; 6]; Mo 543 44 [5; 5]; Mo 69 4 [4; 6]; Mo 51 2 [3; 7]; Mo 39 2 [2; 8]; Mo 133 4 [1; 9]; Mo (-33150) 1 [12]]; []; [Mo (-5) 1232 [3; 3; 4]; Mo (-17) 11088 [2; 4; 4]; Mo 5 308 [2; 3; 5]; Mo 5 264 [1; 4; 5]; Mo (-1) 80 [2; 2; 6]; Mo (-1) 48 [1; 1; 8]; Mo 1323 104 [6; 6]; Mo 69 2 [5; 7]; Mo 99 4 [4; 8]; Mo 153 4 [3; 9]; Mo 29 1 [2; 10]; Mo 49 1 [1; 11]; Mo (-169575) 2 [14]]; []; [Mo (-839) 144144 [4; 4; 4]; Mo 15 2002 [3; 4; 5]; Mo (-3) 2288 [2; 5; 5]; Mo (-43) 16016 [3; 3; 6]; Mo 15 1144 [2; 4; 6]; Mo 9 572 [1; 5; 6]; Mo (-1) 80 [2; 2; 8]; Mo (-1) 48 [1; 1; 10]; Mo 949 40 [7; 7]; Mo 33 1 [6; 8]; Mo 189 4 [5; 9]; Mo 137 4 [4; 10]; Mo 54 1 [3; 11]; Mo 81 2 [2; 12]; Mo 271 4 [1; 13]]];
  [[]; []; []; []; []; []; []; [Mo (-1) 2 [1; 2]; Mo 63 2 [5]]; [Mo (-3) 40 [2; 2]; Mo 1 4 [1; 3]]; [Mo (-1) 2 [2; 3]; Mo (-1) 2 [1; 4]; Mo 297 2 [7]]; [Mo 1 14 [3; 3]; Mo 1 4 [1; 5]]; [Mo (-1) 2 [3; 4]; Mo (-1) 2 [2; 5]; Mo (-1) 2 [1; 6]; Mo 429 1 [9]]; [Mo (-1) 24 [4; 4]; Mo 1 4 [3; 5]; Mo 1 4 [1; 7]]; [Mo (-1) 2 [4; 5]; Mo (-1) 2 [3; 6]; Mo (-1) 2 [2; 7]; Mo (-1) 2 [1; 8]; Mo 975 1 [11]]; [Mo 1 11 [5; 5]; Mo 1 4 [3; 7]; Mo 1 4 [1; 9]]; [Mo (-1) 2 [5; 6]; Mo (-1) 2 [4; 7]; Mo (-1) 2 [3; 8]; Mo (-1) 2 [2; 9]; Mo (-1) 2 [1; 10]; Mo 3825 2 [13]]; [Mo (-3) 104 [6; 6]; Mo 1 4 [5; 7]; Mo 1 4 [3; 9]; Mo 1 4 [1; 11]]; [Mo (-1) 2 [6; 7]; Mo (-1) 2 [5; 8]; Mo (-1) 2 [4; 9]; Mo (-1) 2 [3; 10]; Mo (-1) 2 [2; 11]; Mo (-1) 2 [1; 12]; Mo 6783 2 [15]]; [Mo 1 10 [7; 7]; Mo 1 4 [5; 9]; Mo 1 4 [3; 11]; Mo 1 4 [1; 13]]]];
 [[[]; []; []; []; []; []; []; []; []; [Mo 1 48 [1; 1; 1]; Mo (-15) 4 [2; 3]; Mo (-21) 4 [1; 4]; Mo 1287 2 [7]]; [Mo 1 40 [1; 1; 2]; Mo (-15) 56 [3; 3]; Mo 3 4 [2; 4]; Mo (-9) 4 [1; 5]]; [Mo 1 80 [1; 2; 2]; Mo 1 48 [1; 1; 3]; Mo (-9) 1 [3; 4]; Mo (-21) 2 [2; 5]; Mo (-27) 2 [1; 6]; Mo 4290 1 [9]]; [Mo 1 280 [2; 2; 2]; Mo 9 280 [1; 2; 3]; Mo 25 24 [4; 4]; Mo (-9) 4 [3; 5]; Mo 3 4 [2; 6]; Mo (-11) 2 [1; 7]]; [Mo 1 80 [2; 2; 3]; Mo 1 112 [1; 3; 3]; Mo 1 48 [1; 1; 5]; Mo (-63) 4 [4; 5]; Mo (-69) 4 [3; 6]; Mo (-81) 4 [2; 7]; Mo (-99) 4 [1; 8]; Mo 16575 1 [11]]; [Mo 1 140 [2; 3; 3]; Mo 3 280 [2; 2; 4]; Mo 1 42 [1; 3; 4]; Mo (-57) 44 [5; 5]; Mo 5 2 [4; 6]; Mo (-11) 2 [3; 7]; Mo 3 4 [2; 8]; Mo (-39) 4 [1; 9]]; [Mo 1 112 [3; 3; 3]; Mo 1 144 [1; 4; 4]; Mo 1 80 [2; 2; 5]; Mo 1 48 [1; 1; 7]; Mo (-24) 1 [5; 6]; Mo (-51) 2 [4; 7]; Mo (-57) 2 [3; 8]; Mo (-33) 1 [2; 9]; Mo (-39) 1 [1; 10]; Mo 48450 1 [13]]; [Mo 3 616 [3; 3; 4]; Mo 5 924 [2; 4; 4]; Mo 5 308 [2; 3; 5]; Mo 5 264 [1; 4; 5]; Mo 129 52 [6; 6]; Mo (-11) 2 [5; 7]; Mo 5 2 [4; 8]; Mo (-39) 4 [3; 9]; Mo 3 4 [2; 10]; Mo (-15) 1 [1; 11]]; [Mo 1 144 [3; 4; 4]; Mo 1 112 [3; 3; 5]; Mo 1 176 [1; 5; 5]; Mo 1 80 [2; 2; 7]; Mo 1 48 [1; 1; 9]; Mo (-135) 4 [6; 7]; Mo (-141) 4 [5; 8]; Mo (-153) 4 [4; 9]; Mo (-171) 4 [3; 10]; Mo (-195) 4 [2; 11]; Mo (-225) 4 [1; 12]; Mo 237405 2 [15]]; [Mo 9 8008 [4; 4; 4]; Mo 15 2002 [3; 4; 5]; Mo 5 1144 [2; 5; 5]; Mo 25 4004 [3; 3; 6]; Mo 15 1144 [2; 4; 6]; Mo 9 572 [1; 5; 6]; Mo (-23) 8 [7; 7]; Mo 21 4 [6; 8]; Mo (-39) 4 [5; 9]; Mo 5 2 [4; 10]; Mo (-15) 1 [3; 11]; Mo 3 4 [2; 12]; Mo (-85) 4 [1; 13]]];
  [[]; []; []; []; []; []; []; []; []; [Mo 9 40 [2; 2]; Mo 1 2 [1; 3]; Mo (-99) 2 [6]]; []; [Mo 1 7 [3; 3]; Mo 3 4 [2; 4]; Mo 1 2 [1; 5]; Mo (-429) 2 [8]]; []; [Mo 7 24 [4; 4]; Mo 1 2 [3; 5]; Mo 3 4 [2; 6]; Mo 1 2 [1; 7]; Mo (-585) 1 [10]]; []; [Mo 2 11 [5; 5]; Mo 3 4 [4; 6]; Mo 1 2 [3; 7]; Mo 3 4 [2; 8]; Mo 1 2 [1; 9]; Mo (-1275) 1 [12]]; []; [Mo 33 104 [6; 6]; Mo 1 2 [5; 7]; Mo 3 4 [4; 8]; Mo 1 2 [3; 9]; Mo 3 4 [2; 10]; Mo 1 2 [1; 11]; Mo (-4845) 2 [14]]];
  [[]; []; []; []; []; []; []; []; []; [Mo 37 80 [1; 1; 2]; Mo (-1065) 56 [3; 3]; Mo (-165) 4 [2; 4]; Mo (-261) 4 [1; 5]; Mo 19305 2 [8]]; []; [Mo 1 1152 [1; 1; 1; 1]; Mo 13 280 [2; 2; 2]; Mo 33 35 [1; 2; 3]; Mo 11 24 [1; 1; 4]; Mo (-220) 3 [4; 4]; Mo (-363) 2 [3; 5]; Mo (-363) 2 [2; 6]; Mo (-605) 2 [1; 7]; Mo 182325 2 [10]]; []; [Mo 1 960 [1; 1; 2; 2]; Mo 219 560 [2; 3; 3]; Mo 169 560 [2; 2; 4]; Mo 25 28 [1; 3; 4]; Mo 3 4 [1; 2; 5]; Mo 11 16 [1; 1; 6]; Mo (-4995) 22 [5; 5]; Mo (-402) 1 [4; 6]; Mo (-1065) 2 [3; 7]; Mo (-519) 1 [2; 8]; Mo (-3471) 4 [1; 9]; Mo 944775 2 [12]]; []; [Mo 1 3200 [2; 2; 2; 2]; Mo 1 1344 [1; 1; 3; 3]; Mo 271 616 [3; 3; 4]; Mo 46 231 [2; 4; 4]; Mo 261 308 [2; 3; 5]; Mo 19 22 [1; 4; 5]; Mo 3 8 [2; 2; 6]; Mo 3 4 [1; 3; 6]; Mo 3 4 [1; 2; 7]; Mo 1 1 [1; 1; 8]; Mo (-21399) 52 [6; 6]; Mo (-2019) 2 [5; 7]; Mo (-897) 1 [4; 8]; Mo (-2493) 2 [3; 9]; Mo (-4755) 4 [2; 10]; Mo (-1965) 1 [1; 11]; Mo 3561075 2 [14]]; []; [Mo 1 2240 [2; 2; 3; 3]; Mo 1 1728 [1; 1; 4; 4]; Mo 13985 144144 [4; 4; 4]; Mo 3183 4004 [3; 4; 5]; Mo 879 2288 [2; 5; 5]; Mo 8751 16016 [3; 3; 6]; Mo 519 1144 [2; 4; 6]; Mo 483 572 [1; 5; 6]; Mo 3 4 [2; 3; 7]; Mo 3 4 [1; 4; 7]; Mo 9 16 [2; 2; 8]; Mo 3 4 [1; 3; 8]; Mo 3 4 [1; 2; 9]; Mo 67 48 [1; 1; 10]; Mo (-7367) 8 [7; 7]; Mo (-6261) 4 [6; 8]; Mo (-7965) 4 [5; 9]; Mo (-7065) 4 [4; 10]; Mo (-5055) 2 [3; 11]; Mo (-9447) 4 [2; 12]; Mo (-15385) 4 [1; 13]]];
  [[]; []; []; []; []; []; []; []; []; [Mo (-1) 48 [1; 1; 1]; Mo 15 4 [2; 3]; Mo 21 4 [1; 4]; Mo (-1287) 2 [7]]; [Mo 1 40 [1; 1; 2]; Mo (-15) 56 [3; 3]; Mo 3 4 [2; 4]; Mo (-9) 4 [1; 5]]; [Mo (-1) 80 [1; 2; 2]; Mo (-1) 48 [1; 1; 3]; Mo 9 1 [3; 4]; Mo 21 2 [2; 5]; Mo 27 2 [1; 6]; Mo (-4290) 1 [9]]; [Mo 1 280 [2; 2; 2]; Mo 9 280 [1; 2; 3]; Mo 25 24 [4; 4]; Mo (-9) 4 [3; 5]; Mo 3 4 [2; 6]; Mo (-11) 2 [1; 7]]; [Mo (-1) 80 [2; 2; 3]; Mo (-1) 112 [1; 3; 3]; Mo (-1) 48 [1; 1; 5]; Mo 63 4 [4; 5]; Mo 69 4 [3; 6]; Mo 81 4 [2; 7]; Mo 99 4 [1; 8]; Mo (-16575) 1 [11]]; [Mo 1 140 [2; 3; 3]; Mo 3 280 [2; 2; 4]; Mo 1 42 [1; 3; 4]; Mo (-57) 44 [5; 5]; Mo 5 2 [4; 6]; Mo (-11) 2 [3; 7]; Mo 3 4 [2; 8]; Mo (-39) 4 [1; 9]]; [Mo (-1) 112 [3; 3; 3]; Mo (-1) 144 [1; 4; 4]; Mo (-1) 80 [2; 2; 5]; Mo (-1) 48 [1; 1; 7]; Mo 24 1 [5; 6]; Mo 51 2 [4; 7]; Mo 57 2 [3; 8]; Mo 33 1 [2; 9]; Mo 39 1 [1; 10]; Mo (-48450) 1 [13]]; [Mo 3 616 [3; 3; 4]; Mo 5 924 [2; 4; 4]; Mo 5 308 [2; 3; 5]; Mo 5 264 [1; 4; 5]; Mo 129 52 [6; 6]; Mo (-11) 2 [5; 7]; Mo 5 2 [4; 8]; Mo (-39) 4 [3; 9]; Mo 3 4 [2; 10]; Mo (-15) 1 [1; 11]]; [Mo (-1) 144 [3; 4; 4]; Mo (-1) 112 [3; 3; 5]; Mo (-1) 176 [1; 5; 5]; Mo (-1) 80 [2; 2; 7]; Mo (-1) 48 [1; 1; 9]; Mo 135 4 [6; 7]; Mo 141 4 [5; 8]; Mo 153 4 [4; 9]; Mo 171 4 [3; 10]; Mo 195 4 [2; 11]; Mo 225 4 [1; 12]; Mo (-237405) 2 [15]]; [Mo 9 8008 [4; 4; 4]; Mo 15 2002 [3; 4; 5]; Mo 5 1144 [2; 5; 5]; Mo 25 4004 [3; 3; 6]; Mo 15 1144 [2; 4; 6]; Mo 9 572 [1; 5; 6]; Mo (-23) 8 [7; 7]; Mo 21 4 [6; 8]; Mo (-39) 4 [5; 9]; Mo 5 2 [4; 10]; Mo (-15) 1 [3; 11]; Mo 3 4 [2; 12]; Mo (-85) 4 [1; 13]]]];
 [[[]; []; []; []; []; []; []; []; []; []; []; [Mo (-31) 80 [1; 2; 2]; Mo (-23) 48 [1; 1; 3]; Mo 105 2 [3; 4]; Mo 63 1 [2; 5]; Mo 99 1 [1; 6]; Mo (-36465) 2 [9]]; [Mo 1 1152 [1; 1; 1; 1]; Mo 1 28 [2; 2; 2]; Mo (-5) 28 [1; 2; 3]; Mo (-1) 4 [1; 1; 4]; Mo (-35) 24 [4; 4]; Mo 15 4 [3; 5]; Mo (-33) 4 [2; 6]; Mo 143 4 [1; 7]]; [Mo (-9) 20 [2; 2; 3]; Mo (-27) 56 [1; 3; 3]; Mo (-1) 1 [1; 2; 4]; Mo (-2) 3 [1; 1; 5]; Mo 210 1 [4; 5]; Mo 234 1 [3; 6]; Mo 297 1 [2; 7]; Mo 429 1 [1; 8]; Mo (-314925) 2 [11]]; [Mo 1 960 [1; 1; 2; 2]; Mo (-5) 28 [2; 3; 3]; Mo 3 28 [2; 2; 4]; Mo (-11) 42 [1; 3; 4]; Mo (-1) 2 [1; 2; 5]; Mo (-1) 4 [1; 1; 6]; Mo 525 44 [5; 5]; Mo (-55) 2 [4; 6]; Mo 79 2 [3; 7]; Mo (-39) 2 [2; 8]; Mo 585 4 [1; 9]]; [Mo (-17) 112 [3; 3; 3]; Mo (-1) 1 [2; 3; 4]; Mo (-7) 16 [1; 4; 4]; Mo (-9) 16 [2; 2; 5]; Mo (-9) 8 [1; 3; 5]; Mo (-1) 1 [1; 2; 6]; Mo (-15) 16 [1; 1; 7]; Mo 540 1 [5; 6]; Mo 1161 2 [4; 7]; Mo 1353 2 [3; 8]; Mo 858 1 [2; 9]; Mo 1170 1 [1; 10]; Mo (-1526175) 2 [13]]; [Mo 1 3200 [2; 2; 2; 2]; Mo 1 1344 [1; 1; 3; 3]; Mo (-31) 154 [3; 3; 4]; Mo 25 462 [2; 4; 4]; Mo (-26) 77 [2; 3; 5]; Mo (-41) 132 [1; 4; 5]; Mo (-1) 2 [1; 3; 6]; Mo (-1) 2 [1; 2; 7]; Mo (-1) 4 [1; 1; 8]; Mo (-777) 26 [6; 6]; Mo 62 1 [5; 7]; Mo (-65) 1 [4; 8]; Mo 150 1 [3; 9]; Mo (-135) 4 [2; 10]; Mo 765 2 [1; 11]]; [Mo (-17) 36 [3; 4; 4]; Mo (-17) 28 [3; 3; 5]; Mo (-1) 1 [2; 4; 5]; Mo (-45) 88 [1; 5; 5]; Mo (-1) 1 [2; 3; 6]; Mo (-1) 1 [1; 4; 6]; Mo (-29) 40 [2; 2; 7]; Mo (-9) 8 [1; 3; 7]; Mo (-1) 1 [1; 2; 8]; Mo (-31) 24 [1; 1; 9]; Mo 1125 1 [6; 7]; Mo 1185 1 [5; 8]; Mo 1320 1 [4; 9]; Mo 1560 1 [3; 10]; Mo 1950 1 [2; 11]; Mo 2550 1 [1; 12]; Mo (-5460315) 2 [15]]; [Mo 1 2240 [2; 2; 3; 3]; Mo 1 1728 [1; 1; 4; 4]; Mo 45 4004 [4; 4; 4]; Mo (-851) 2002 [3; 4; 5]; Mo (-59) 286 [2; 5; 5]; Mo (-751) 4004 [3; 3; 6]; Mo 75 572 [2; 4; 6]; Mo (-49) 143 [1; 5; 6]; Mo (-1) 2 [2; 3; 7]; Mo (-1) 2 [1; 4; 7]; Mo (-1) 2 [1; 3; 8]; Mo (-1) 2 [1; 2; 9]; Mo (-1) 4 [1; 1; 10]; Mo 257 4 [7; 7]; Mo (-273) 2 [6; 8]; Mo 345 2 [5; 9]; Mo (-225) 2 [4; 10]; Mo 1545 4 [3; 11]; Mo (-51) 1 [2; 12]; Mo 1615 2 [1; 13]]];
  [[]; []; []; []; []; []; []; []; []; []; []; [Mo 11 240 [1; 1; 2]; Mo (-115) 56 [3; 3]; Mo (-19) 4 [2; 4]; Mo (-27) 4 [1; 5]; Mo 2145 2 [8]]; []; [Mo 9 560 [2; 2; 2]; Mo 9 280 [1; 2; 3]; Mo 1 48 [1; 1; 4]; Mo (-45) 8 [4; 4]; Mo (-37) 4 [3; 5]; Mo (-63) 4 [2; 6]; Mo (-33) 2 [1; 7]; Mo 6630 1 [10]]; []; [Mo 9 560 [2; 3; 3]; Mo 13 560 [2; 2; 4]; Mo 1 42 [1; 3; 4]; Mo 1 48 [1; 1; 6]; Mo (-325) 44 [5; 5]; Mo (-21) 1 [4; 6]; Mo (-19) 1 [3; 7]; Mo (-123) 4 [2; 8]; Mo (-117) 4 [1; 9]; Mo 24225 1 [12]]; []; [Mo 17 1232 [3; 3; 4]; Mo 137 11088 [2; 4; 4]; Mo 5 308 [2; 3; 5]; Mo 5 264 [1; 4; 5]; Mo 1 80 [2; 2; 6]; Mo 1 48 [1; 1; 8]; Mo (-783) 52 [6; 6]; Mo (-47) 2 [5; 7]; Mo (-36) 1 [4; 8]; Mo (-127) 4 [3; 9]; Mo (-199) 4 [2; 10]; Mo (-45) 1 [1; 11]; Mo 67830 1 [14]]];
  [[]; []; []; []; []; []; []; []; []; []; []; [Mo 13 1152 [1; 1; 1; 1]; Mo (-631) 560 [2; 2; 2]; Mo (-493) 56 [1; 2; 3]; Mo (-299) 48 [1; 1; 4]; Mo 8785 24 [4; 4]; Mo 3165 4 [3; 5]; Mo 3927 4 [2; 6]; Mo 3289 2 [1; 7]; Mo (-692835) 2 [10]]; []; [Mo 11 1120 [1; 1; 2; 2]; Mo 1 84 [1; 1; 1; 3]; Mo (-1011) 112 [2; 3; 3]; Mo (-765) 112 [2; 2; 4]; Mo (-157) 7 [1; 3; 4]; Mo (-95) 4 [1; 2; 5]; Mo (-261) 16 [1; 1; 6]; Mo 198555 88 [5; 5]; Mo 17955 4 [4; 6]; Mo 11079 2 [3; 7]; Mo 12831 2 [2; 8]; Mo 43485 4 [1; 9]; Mo (-3968055) 1 [12]]; []; [Mo 3 640 [2; 2; 2; 2]; Mo 1 560 [1; 2; 2; 3]; Mo 1 192 [1; 1; 3; 3]; Mo 17 3360 [1; 1; 2; 4]; Mo 1 48 [1; 1; 1; 5]; Mo (-28459) 1848 [3; 3; 4]; Mo (-10555) 924 [2; 4; 4]; Mo (-5085) 154 [2; 3; 5]; Mo (-3401) 88 [1; 4; 5]; Mo (-27) 2 [2; 2; 6]; Mo (-331) 8 [1; 3; 6]; Mo (-173) 4 [1; 2; 7]; Mo (-273) 8 [1; 1; 8]; Mo 788865 104 [6; 6]; Mo 33795 2 [5; 7]; Mo 17115 1 [4; 8]; Mo 89325 4 [3; 9]; Mo 99705 4 [2; 10]; Mo 41820 1 [1; 11]; Mo (-49142835) 2 [14]]; []; [Mo 51 12320 [2; 2; 3; 3]; Mo 5 1232 [1; 3; 3; 3]; Mo 3 352 [2; 2; 2; 4]; Mo (-193) 18480 [1; 2; 3; 4]; Mo 85 66528 [1; 1; 4; 4]; Mo 1 3080 [1; 2; 2; 5]; Mo 9 1232 [1; 1; 3; 5]; Mo 11 480 [1; 1; 2; 6]; Mo 1 48 [1; 1; 1; 7]; Mo (-350345) 72072 [4; 4; 4]; Mo (-1124213) 24024 [3; 4; 5]; Mo (-27933) 1144 [2; 5; 5]; Mo (-206673) 8008 [3; 3; 6]; Mo (-20469) 572 [2; 4; 6]; Mo (-34201) 572 [1; 5; 6]; Mo (-213) 4 [2; 3; 7]; Mo (-59) 1 [1; 4; 7]; Mo (-195) 8 [2; 2; 8]; Mo (-263) 4 [1; 3; 8]; Mo (-275) 4 [1; 2; 9]; Mo (-761) 12 [1; 1; 10]; Mo 180397 8 [7; 7]; Mo 84885 2 [6; 8]; Mo 199935 4 [5; 9]; Mo 201555 4 [4; 10]; Mo 272445 4 [3; 11]; Mo 73899 1 [2; 12]; Mo 243865 2 [1; 13]]];
  [[]; []; []; []; []; []; []; []; []; []; []; [Mo 31 80 [1; 2; 2]; Mo 23 48 [1; 1; 3]; Mo (-105) 2 [3; 4]; Mo (-63) 1 [2; 5]; Mo (-99) 1 [1; 6]; Mo 36465 2 [9]]; [Mo 1 1152 [1; 1; 1; 1]; Mo 1 28 [2; 2; 2]; Mo (-5) 28 [1; 2; 3]; Mo (-1) 4 [1; 1; 4]; Mo (-35) 24 [4; 4]; Mo 15 4 [3; 5]; Mo (-33) 4 [2; 6]; Mo 143 4 [1; 7]]; [Mo 9 20 [2; 2; 3]; Mo 27 56 [1; 3; 3]; Mo 1 1 [1; 2; 4]; Mo 2 3 [1; 1; 5]; Mo (-210) 1 [4; 5]; Mo (-234) 1 [3; 6]; Mo (-297) 1 [2; 7]; Mo (-429) 1 [1; 8]; Mo 314925 2 [11]]; [Mo 1 960 [1; 1; 2; 2]; Mo (-5) 28 [2; 3; 3]; Mo 3 28 [2; 2; 4]; Mo (-11) 42 [1; 3; 4]; Mo (-1) 2 [1; 2; 5]; Mo (-1) 4 [1; 1; 6]; Mo 525 44 [5; 5]; Mo (-55) 2 [4; 6]; Mo 79 2 [3; 7]; Mo (-39) 2 [2; 8]; Mo 585 4 [1; 9]]; [Mo 17 112 [3; 3; 3]; Mo 1 1 [2; 3; 4]; Mo 7 16 [1; 4; 4]; Mo 9 16 [2; 2; 5]; Mo 9 8 [1; 3; 5]; Mo 1 1 [1; 2; 6]; Mo 15 16 [1; 1; 7]; Mo (-540) 1 [5; 6]; Mo (-1161) 2 [4; 7]; Mo (-1353) 2 [3; 8]; Mo (-858) 1 [2; 9]; Mo (-1170) 1 [1; 10]; Mo 1526175 2 [13]]; [Mo 1 3200 [2; 2; 2; 2]; Mo 1 1344 [1; 1; 3; 3]; Mo (-31) 154 [3; 3; 4]; Mo 25 462 [2; 4; 4]; Mo (-26) 77 [2; 3; 5]; Mo (-41) 132 [1; 4; 5]; Mo (-1) 2 [1; 3; 6]; Mo (-1) 2 [1; 2; 7]; Mo (-1) 4 [1; 1; 8]; Mo (-777) 26 [6; 6]; Mo 62 1 [5; 7]; Mo (-65) 1 [4; 8]; Mo 150 1 [3; 9]; Mo (-135) 4 [2; 10]; Mo 765 2 [1; 11]]; [Mo 17 36 [3; 4; 4]; Mo 17 28 [3; 3; 5]; Mo 1 1 [2; 4; 5]; Mo 45 88 [1; 5; 5]; Mo 1 1 [2; 3; 6]; Mo 1 1 [1; 4; 6]; Mo 29 40 [2; 2; 7]; Mo 9 8 [1; 3; 7]; Mo 1 1 [1; 2; 8]; Mo 31 24 [1; 1; 9]; Mo (-1125) 1 [6; 7]; Mo (-1185) 1 [5; 8]; Mo (-1320) 1 [4; 9]; Mo (-1560) 1 [3; 10]; Mo (-1950) 1 [2; 11]; Mo (-2550) 1 [1; 12]; Mo 5460315 2 [15]]; [Mo 1 2240 [2; 2; 3; 3]; Mo 1 1728 [1; 1; 4; 4]; Mo 45 4004 [4; 4; 4]; Mo (-851) 2002 [3; 4; 5]; Mo (-59) 286 [2; 5; 5]; Mo (-751) 4004 [3; 3; 6]; Mo 75 572 [2; 4; 6]; Mo (-49) 143 [1; 5; 6]; Mo (-1) 2 [2; 3; 7]; Mo (-1) 2 [1; 4; 7]; Mo (-1) 2 [1; 3; 8]; Mo (-1) 2 [1; 2; 9]; Mo (-1) 4 [1; 1; 10]; Mo 257 4 [7; 7]; Mo (-273) 2 [6; 8]; Mo 345 2 [5; 9]; Mo (-225) 2 [4; 10]; Mo 1545 4 [3; 11]; Mo (-51) 1 [2; 12]; Mo 1615 2 [1; 13]]]];
 [[[]; []; []; []; []; []; []; []; []; []; []; []; []; [Mo (-1) 30 [1; 1; 1; 2]; Mo 63 16 [2; 2; 3]; Mo 545 112 [1; 3; 3]; Mo 87 8 [1; 2; 4]; Mo 129 16 [1; 1; 5]; Mo (-2205) 2 [4; 5]; Mo (-2475) 2 [3; 6]; Mo (-6435) 4 [2; 7]; Mo (-10725) 4 [1; 8]; Mo 1322685 2 [11]]; [Mo (-27) 2240 [1; 1; 2; 2]; Mo (-13) 672 [1; 1; 1; 3]; Mo (-3) 4 [2; 2; 4]; Mo 5 2 [1; 3; 4]; Mo 9 4 [1; 2; 5]; Mo 33 8 [1; 1; 6]; Mo (-945) 88 [5; 5]; Mo 105 4 [4; 6]; Mo (-195) 4 [3; 7]; Mo 585 4 [2; 8]; Mo (-3315) 4 [1; 9]]; [Mo (-1) 70 [1; 2; 2; 2]; Mo (-83) 1680 [1; 1; 2; 3]; Mo (-1) 48 [1; 1; 1; 4]; Mo 345 112 [3; 3; 3]; Mo 81 4 [2; 3; 4]; Mo 195 16 [1; 4; 4]; Mo 189 16 [2; 2; 5]; Mo 209 8 [1; 3; 5]; Mo 63 2 [1; 2; 6]; Mo 363 16 [1; 1; 7]; Mo (-6300) 1 [5; 6]; Mo (-27225) 4 [4; 7]; Mo (-32175) 4 [3; 8]; Mo (-10725) 1 [2; 9]; Mo (-16575) 1 [1; 10]; Mo 7020405 1 [13]]; [Mo 3 2240 [2; 2; 2; 2]; Mo (-37) 1120 [1; 2; 2; 3]; Mo (-3) 224 [1; 1; 3; 3]; Mo (-1) 56 [1; 1; 2; 4]; Mo (-1) 96 [1; 1; 1; 5]; Mo 205 132 [3; 3; 4]; Mo (-155) 66 [2; 4; 4]; Mo 87 22 [2; 3; 5]; Mo 225 44 [1; 4; 5]; Mo (-15) 8 [2; 2; 6]; Mo 33 4 [1; 3; 6]; Mo 83 8 [1; 2; 7]; Mo 39 4 [1; 1; 8]; Mo 15435 104 [6; 6]; Mo (-1365) 4 [5; 7]; Mo 2055 4 [4; 8]; Mo (-3765) 4 [3; 9]; Mo 2295 4 [2; 10]; Mo (-4845) 1 [1; 11]]; [Mo (-1) 70 [2; 2; 2; 3]; Mo (-1) 35 [1; 2; 3; 3]; Mo (-1) 56 [1; 2; 2; 4]; Mo (-11) 336 [1; 1; 3; 4]; Mo (-1) 30 [1; 1; 2; 5]; Mo (-1) 48 [1; 1; 1; 6]; Mo 395 24 [3; 4; 4]; Mo 969 56 [3; 3; 5]; Mo 297 8 [2; 4; 5]; Mo 1937 88 [1; 5; 5]; Mo 327 8 [2; 3; 6]; Mo 175 4 [1; 4; 6]; Mo 999 40 [2; 2; 7]; Mo 417 8 [1; 3; 7]; Mo 477 8 [1; 2; 8]; Mo 377 8 [1; 1; 9]; Mo (-86625) 4 [6; 7]; Mo (-91575) 4 [5; 8]; Mo (-25740) 1 [4; 9]; Mo (-31200) 1 [3; 10]; Mo (-82875) 2 [2; 11]; Mo (-121125) 2 [1; 12]; Mo 81904725 2 [15]]; [Mo (-31) 3520 [2; 2; 3; 3]; Mo (-23) 2464 [1; 3; 3; 3]; Mo (-3) 616 [2; 2; 2; 4]; Mo (-71) 1848 [1; 2; 3; 4]; Mo (-277) 44352 [1; 1; 4; 4]; Mo (-227) 12320 [1; 2; 2; 5]; Mo (-59) 2464 [1; 1; 3; 5]; Mo (-1) 96 [1; 1; 1; 7]; Mo (-955) 858 [4; 4; 4]; Mo 10775 1716 [3; 4; 5]; Mo 843 286 [2; 5; 5]; Mo 5469 1144 [3; 3; 6]; Mo (-965) 143 [2; 4; 6]; Mo 1416 143 [1; 5; 6]; Mo 83 8 [2; 3; 7]; Mo 45 4 [1; 4; 7]; Mo (-15) 8 [2; 2; 8]; Mo 39 2 [1; 3; 8]; Mo 21 1 [1; 2; 9]; Mo 135 8 [1; 1; 10]; Mo (-4977) 8 [7; 7]; Mo 5355 4 [6; 8]; Mo (-6465) 4 [5; 9]; Mo 7755 4 [4; 10]; Mo (-20145) 4 [3; 11]; Mo 2907 2 [2; 12]; Mo (-33915) 2 [1; 13]]];
  [[]; []; []; []; []; []; []; []; []; []; []; []; []; [Mo 1 1152 [1; 1; 1; 1]; Mo (-61) 560 [2; 2; 2]; Mo (-43) 56 [1; 2; 3]; Mo (-25) 48 [1; 1; 4]; Mo 805 24 [4; 4]; Mo 285 4 [3; 5]; Mo 363 4 [2; 6]; Mo 143 1 [1; 7]; Mo (-62985) 2 [10]]; []; [Mo 1 960 [1; 1; 2; 2]; Mo (-23) 56 [2; 3; 3]; Mo (-5) 7 [2; 2; 4]; Mo (-25) 28 [1; 3; 4]; Mo (-5) 4 [1; 2; 5]; Mo (-3) 4 [1; 1; 6]; Mo 5565 44 [5; 5]; Mo 285 1 [4; 6]; Mo 591 2 [3; 7]; Mo 1833 4 [2; 8]; Mo 585 1 [1; 9]; Mo (-508725) 2 [12]]; []; [Mo 1 3200 [2; 2; 2; 2]; Mo 1 1344 [1; 1; 3; 3]; Mo (-625) 1232 [3; 3; 4]; Mo (-2857) 3696 [2; 4; 4]; Mo (-155) 154 [2; 3; 5]; Mo (-85) 88 [1; 4; 5]; Mo (-81) 80 [2; 2; 6]; Mo (-5) 4 [1; 3; 6]; Mo (-5) 4 [1; 2; 7]; Mo (-17) 16 [1; 1; 8]; Mo 9177 26 [6; 6]; Mo 633 1 [5; 7]; Mo 810 1 [4; 8]; Mo 3375 4 [3; 9]; Mo 2655 2 [2; 10]; Mo 1530 1 [1; 11]; Mo (-2340135) 2 [14]]];
  [[]; []; []; []; []; []; []; []; []; []; []; []; []; [Mo (-1133) 2240 [1; 1; 2; 2]; Mo (-143) 336 [1; 1; 1; 3]; Mo 6045 112 [2; 3; 3]; Mo 951 16 [2; 2; 4]; Mo 605 4 [1; 3; 4]; Mo 180 1 [1; 2; 5]; Mo 2277 16 [1; 1; 6]; Mo (-874125) 88 [5; 5]; Mo (-83055) 4 [4; 6]; Mo (-24180) 1 [3; 7]; Mo (-128115) 4 [2; 8]; Mo (-222105) 4 [1; 9]; Mo 30421755 2 [12]]; []; [Mo (-7) 11520 [1; 1; 1; 1; 2]; Mo (-157) 4480 [2; 2; 2; 2]; Mo (-307) 280 [1; 2; 2; 3]; Mo (-337) 448 [1; 1; 3; 3]; Mo (-433) 336 [1; 1; 2; 4]; Mo (-55) 96 [1; 1; 1; 5]; Mo 133645 616 [3; 3; 4]; Mo 53125 264 [2; 4; 4]; Mo 41685 88 [2; 3; 5]; Mo 53885 88 [1; 4; 5]; Mo 987 4 [2; 2; 6]; Mo 5607 8 [1; 3; 6]; Mo 817 1 [1; 2; 7]; Mo 5031 8 [1; 1; 8]; Mo (-2011905) 26 [6; 6]; Mo (-324975) 2 [5; 7]; Mo (-705405) 4 [4; 8]; Mo (-441315) 2 [3; 9]; Mo (-554115) 2 [2; 10]; Mo (-954465) 2 [1; 11]; Mo 409523625 2 [14]]; []; [Mo (-17) 67200 [1; 1; 2; 2; 2]; Mo (-3) 2240 [1; 1; 1; 2; 3]; Mo 1 2304 [1; 1; 1; 1; 4]; Mo (-7419) 12320 [2; 2; 3; 3]; Mo (-127) 308 [1; 3; 3; 3]; Mo (-3001) 12320 [2; 2; 2; 4]; Mo (-2745) 1232 [1; 2; 3; 4]; Mo (-1037) 1386 [1; 1; 4; 4]; Mo (-15263) 12320 [1; 2; 2; 5]; Mo (-4273) 2464 [1; 1; 3; 5]; Mo (-111) 80 [1; 1; 2; 6]; Mo (-47) 48 [1; 1; 1; 7]; Mo 251905 1716 [4; 4; 4]; Mo 1254005 1144 [3; 4; 5]; Mo 338517 572 [2; 5; 5]; Mo 349419 572 [3; 3; 6]; Mo 1198491 1144 [2; 4; 6]; Mo 918837 572 [1; 5; 6]; Mo 5553 4 [2; 3; 7]; Mo 1685 1 [1; 4; 7]; Mo 2823 4 [2; 2; 8]; Mo 8001 4 [1; 3; 8]; Mo 4575 2 [1; 2; 9]; Mo 14645 8 [1; 1; 10]; Mo (-2847663) 8 [7; 7]; Mo (-2830275) 4 [6; 8]; Mo (-3163995) 4 [5; 9]; Mo (-3451095) 4 [4; 10]; Mo (-4492845) 4 [3; 11]; Mo (-5444811) 4 [2; 12]; Mo (-2306220) 1 [1; 13]]];
  [[]; []; []; []; []; []; []; []; []; []; []; []; []; [Mo 1 30 [1; 1; 1; 2]; Mo (-63) 16 [2; 2; 3]; Mo (-545) 112 [1; 3; 3]; Mo (-87) 8 [1; 2; 4]; Mo (-129) 16 [1; 1; 5]; Mo 2205 2 [4; 5]; Mo 2475 2 [3; 6]; Mo 6435 4 [2; 7]; Mo 10725 4 [1; 8]; Mo (-1322685) 2 [11]]; [Mo (-27) 2240 [1; 1; 2; 2]; Mo (-13) 672 [1; 1; 1; 3]; Mo (-3) 4 [2; 2; 4]; Mo 5 2 [1; 3; 4]; Mo 9 4 [1; 2; 5]; Mo 33 8 [1; 1; 6]; Mo (-945) 88 [5; 5]; Mo 105 4 [4; 6]; Mo (-195) 4 [3; 7]; Mo 585 4 [2; 8]; Mo (-3315) 4 [1; 9]]; [Mo 1 70 [1; 2; 2; 2]; Mo 83 1680 [1; 1; 2; 3]; Mo 1 48 [1; 1; 1; 4]; Mo (-345) 112 [3; 3; 3]; Mo (-81) 4 [2; 3; 4]; Mo (-195) 16 [1; 4; 4]; Mo (-189) 16 [2; 2; 5]; Mo (-209) 8 [1; 3; 5]; Mo (-63) 2 [1; 2; 6]; Mo (-363) 16 [1; 1; 7]; Mo 6300 1 [5; 6]; Mo 27225 4 [4; 7]; Mo 32175 4 [3; 8]; Mo 10725 1 [2; 9]; Mo 16575 1 [1; 10]; Mo (-7020405) 1 [13]]; [Mo 3 2240 [2; 2; 2; 2]; Mo (-37) 1120 [1; 2; 2; 3]; Mo (-3) 224 [1; 1; 3; 3]; Mo (-1) 56 [1; 1; 2; 4]; Mo (-1) 96 [1; 1; 1; 5]; Mo 205 132 [3; 3; 4]; Mo (-155) 66 [2; 4; 4]; Mo 87 22 [2; 3; 5]; Mo 225 44 [1; 4; 5]; Mo (-15) 8 [2; 2; 6]; Mo 33 4 [1; 3; 6]; Mo 83 8 [1; 2; 7]; Mo 39 4 [1; 1; 8]; Mo 15435 104 [6; 6]; Mo (-1365) 4 [5; 7]; Mo 2055 4 [4; 8]; Mo (-3765) 4 [3; 9]; Mo 2295 4 [2; 10]; Mo (-4845) 1 [1; 11]]; [Mo 1 70 [2; 2; 2; 3]; Mo 1 35 [1; 2; 3; 3]; Mo 1 56 [1; 2; 2; 4]; Mo 11 336 [1; 1; 3; 4]; Mo 1 30 [1; 1; 2; 5]; Mo 1 48 [1; 1; 1; 6]; Mo (-395) 24 [3; 4; 4]; Mo (-969) 56 [3; 3; 5]; Mo (-297) 8 [2; 4; 5]; Mo (-1937) 88 [1; 5; 5]; Mo (-327) 8 [2; 3; 6]; Mo (-175) 4 [1; 4; 6]; Mo (-999) 40 [2; 2; 7]; Mo (-417) 8 [1; 3; 7]; Mo (-477) 8 [1; 2; 8]; Mo (-377) 8 [1; 1; 9]; Mo 86625 4 [6; 7]; Mo 91575 4 [5; 8]; Mo 25740 1 [4; 9]; Mo 31200 1 [3; 10]; Mo 82875 2 [2; 11]; Mo 121125 2 [1; 12]; Mo (-81904725) 2 [15]]; [Mo (-31) 3520 [2; 2; 3; 3]; Mo (-23) 2464 [1; 3; 3; 3]; Mo (-3) 616 [2; 2; 2; 4]; Mo (-71) 1848 [1; 2; 3; 4]; Mo (-277) 44352 [1; 1; 4; 4]; Mo (-227) 12320 [1; 2; 2; 5]; Mo (-59) 2464 [1; 1; 3; 5]; Mo (-1) 96 [1; 1; 1; 7]; Mo (-955) 858 [4; 4; 4]; Mo 10775 1716 [3; 4; 5]; Mo 843 286 [2; 5; 5]; Mo 5469 1144 [3; 3; 6]; Mo (-965) 143 [2; 4; 6]; Mo 1416 143 [1; 5; 6]; Mo 83 8 [2; 3; 7]; Mo 45 4 [1; 4; 7]; Mo (-15) 8 [2; 2; 8]; Mo 39 2 [1; 3; 8]; Mo 21 1 [1; 2; 9]; Mo 135 8 [1; 1; 10]; Mo (-4977) 8 [7; 7]; Mo 5355 4 [6; 8]; Mo (-6465) 4 [5; 9]; Mo 7755 4 [4; 10]; Mo (-20145) 4 [3; 11]; Mo 2907 2 [2; 12]; Mo (-33915) 2 [1; 13]]]];
 [[[]; []; []; []; []; []; []; []; []; []; []; []; []; []; []; [Mo (-1) 2304 [1; 1; 1; 1; 1]; Mo 31 112 [1; 2; 2; 2]; Mo 229 224 [1; 1; 2; 3]; Mo 15 32 [1; 1; 1; 4]; Mo (-2325) 112 [3; 3; 3]; Mo (-555) 4 [2; 3; 4]; Mo (-4585) 48 [1; 4; 4]; Mo (-1323) 16 [2; 2; 5]; Mo (-1635) 8 [1; 3; 5]; Mo (-1023) 4 [1; 2; 6]; Mo (-3289) 16 [1; 1; 7]; Mo 31185 1 [5; 6]; Mo 135135 4 [4; 7]; Mo 160875 4 [3; 8]; Mo 109395 2 [2; 9]; Mo 188955 2 [1; 10]; Mo (-58503375) 2 [13]]; [Mo (-1) 960 [1; 1; 1; 1; 2]; Mo (-9) 640 [2; 2; 2; 2]; Mo 3 32 [1; 2; 2; 3]; Mo 85 448 [1; 1; 3; 3]; Mo 11 32 [1; 1; 2; 4]; Mo 9 32 [1; 1; 1; 5]; Mo (-175) 88 [3; 3; 4]; Mo 245 44 [2; 4; 4]; Mo 315 88 [2; 3; 5]; Mo (-3675) 88 [1; 4; 5]; Mo 45 4 [2; 2; 6]; Mo (-405) 8 [1; 3; 6]; Mo (-195) 4 [1; 2; 7]; Mo (-195) 2 [1; 1; 8]; Mo (-10395) 104 [6; 6]; Mo 945 4 [5; 7]; Mo (-1575) 4 [4; 8]; Mo 3825 4 [3; 9]; Mo (-14535) 4 [2; 10]; Mo 101745 4 [1; 11]]; [Mo (-1) 1920 [1; 1; 1; 2; 2]; Mo (-1) 2304 [1; 1; 1; 1; 3]; Mo 85 224 [2; 2; 2; 3]; Mo 139 112 [1; 2; 3; 3]; Mo 1497 1120 [1; 2; 2; 4]; Mo 127 84 [1; 1; 3; 4]; Mo 139 80 [1; 1; 2; 5]; Mo 13 16 [1; 1; 1; 6]; Mo (-740) 3 [3; 4; 4]; Mo (-525) 2 [3; 3; 5]; Mo (-1155) 2 [2; 4; 5]; Mo (-33663) 88 [1; 5; 5]; Mo (-642) 1 [2; 3; 6]; Mo (-3193) 4 [1; 4; 6]; Mo (-4059) 10 [2; 2; 7]; Mo (-7355) 8 [1; 3; 7]; Mo (-2379) 2 [1; 2; 8]; Mo (-910) 1 [1; 1; 9]; Mo 467775 2 [6; 7]; Mo 495495 2 [5; 8]; Mo 559845 2 [4; 9]; Mo 686205 2 [3; 10]; Mo 944775 2 [2; 11]; Mo 1526175 2 [1; 12]; Mo (-737142525) 2 [15]]; [Mo (-13) 16800 [1; 1; 2; 2; 2]; Mo (-3) 2240 [1; 1; 1; 2; 3]; Mo 765 4928 [2; 2; 3; 3]; Mo 215 1232 [1; 3; 3; 3]; Mo (-213) 1760 [2; 2; 2; 4]; Mo 61 88 [1; 2; 3; 4]; Mo 841 6336 [1; 1; 4; 4]; Mo 201 440 [1; 2; 2; 5]; Mo 241 352 [1; 1; 3; 5]; Mo 23 32 [1; 1; 2; 6]; Mo 5 12 [1; 1; 1; 7]; Mo 14945 1144 [4; 4; 4]; Mo (-5215) 143 [3; 4; 5]; Mo (-7497) 572 [2; 5; 5]; Mo (-48915) 1144 [3; 3; 6]; Mo 83679 1144 [2; 4; 6]; Mo (-24192) 143 [1; 5; 6]; Mo (-525) 8 [2; 3; 7]; Mo (-297) 2 [1; 4; 7]; Mo 45 1 [2; 2; 8]; Mo (-1095) 4 [1; 3; 8]; Mo (-1215) 4 [1; 2; 9]; Mo (-765) 2 [1; 1; 10]; Mo 2079 1 [7; 7]; Mo (-4725) 1 [6; 8]; Mo 6930 1 [5; 9]; Mo (-13005) 1 [4; 10]; Mo 29070 1 [3; 11]; Mo (-20349) 1 [2; 12]; Mo 780045 4 [1; 13]]];
  [[]; []; []; []; []; []; []; []; []; []; []; []; []; []; []; [Mo (-83) 2240 [1; 1; 2; 2]; Mo (-5) 168 [1; 1; 1; 3]; Mo 465 112 [2; 3; 3]; Mo 75 16 [2; 2; 4]; Mo 45 4 [1; 3; 4]; Mo 27 2 [1; 2; 5]; Mo 165 16 [1; 1; 6]; Mo (-67095) 88 [5; 5]; Mo (-6405) 4 [4; 6]; Mo (-3705) 2 [3; 7]; Mo (-9945) 4 [2; 8]; Mo (-16575) 4 [1; 9]; Mo 2340135 2 [12]]; []; [Mo (-89) 11200 [2; 2; 2; 2]; Mo (-31) 560 [1; 2; 2; 3]; Mo (-11) 672 [1; 1; 3; 3]; Mo (-69) 1120 [1; 1; 2; 4]; Mo (-1) 48 [1; 1; 1; 5]; Mo 34525 3696 [3; 3; 4]; Mo 2301 176 [2; 4; 4]; Mo 537 22 [2; 3; 5]; Mo 1231 44 [1; 4; 5]; Mo 1449 80 [2; 2; 6]; Mo 237 8 [1; 3; 6]; Mo 171 4 [1; 2; 7]; Mo 455 16 [1; 1; 8]; Mo (-445347) 104 [6; 6]; Mo (-8652) 1 [5; 7]; Mo (-19725) 2 [4; 8]; Mo (-22575) 2 [3; 9]; Mo (-68085) 4 [2; 10]; Mo (-24225) 1 [1; 11]; Mo 11700675 1 [14]]];
  [[]; []; []; []; []; []; []; []; []; []; []; []; []; []; []; [Mo (-31) 1280 [1; 1; 1; 1; 2]; Mo 3657 4480 [2; 2; 2; 2]; Mo 1383 112 [1; 2; 2; 3]; Mo 495 64 [1; 1; 3; 3]; Mo 549 32 [1; 1; 2; 4]; Mo 273 32 [1; 1; 1; 5]; Mo (-199175) 176 [3; 3; 4]; Mo (-220395) 176 [2; 4; 4]; Mo (-236295) 88 [2; 3; 5]; Mo (-329385) 88 [1; 4; 5]; Mo (-26649) 16 [2; 2; 6]; Mo (-16785) 4 [1; 3; 6]; Mo (-21645) 4 [1; 2; 7]; Mo (-72345) 16 [1; 1; 8]; Mo 35665245 104 [6; 6]; Mo 709695 1 [5; 7]; Mo 3151575 4 [4; 8]; Mo 1916325 2 [3; 9]; Mo 5276205 4 [2; 10]; Mo 2340135 1 [1; 11]; Mo (-1579591125) 2 [14]]; []; [Mo (-1) 82944 [1; 1; 1; 1; 1; 1]; Mo (-481) 33600 [1; 1; 2; 2; 2]; Mo (-23) 480 [1; 1; 1; 2; 3]; Mo (-13) 1152 [1; 1; 1; 1; 4]; Mo 7625 616 [2; 2; 3; 3]; Mo 40715 3696 [1; 3; 3; 3]; Mo 17291 2464 [2; 2; 2; 4]; Mo 236479 3696 [1; 2; 3; 4]; Mo 63451 3168 [1; 1; 4; 4]; Mo 14979 440 [1; 2; 2; 5]; Mo 7915 176 [1; 1; 3; 5]; Mo 493 10 [1; 1; 2; 6]; Mo 1157 48 [1; 1; 1; 7]; Mo (-13420435) 6864 [4; 4; 4]; Mo (-14952725) 1144 [3; 4; 5]; Mo (-16597287) 2288 [2; 5; 5]; Mo (-16948785) 2288 [3; 3; 6]; Mo (-8425515) 572 [2; 4; 6]; Mo (-24770781) 1144 [1; 5; 6]; Mo (-17655) 1 [2; 3; 7]; Mo (-92849) 4 [1; 4; 7]; Mo (-167535) 16 [2; 2; 8]; Mo (-55995) 2 [1; 3; 8]; Mo (-279675) 8 [1; 2; 9]; Mo (-455005) 16 [1; 1; 10]; Mo 26818407 8 [7; 7]; Mo 13680765 2 [6; 8]; Mo 29747655 4 [5; 9]; Mo 8455035 1 [4; 10]; Mo 42950925 4 [3; 11]; Mo 28346157 2 [2; 12]; Mo 99065715 4 [1; 13]]];
  [[]; []; []; []; []; []; []; []; []; []; []; []; []; []; []; [Mo 1 2304 [1; 1; 1; 1; 1]; Mo (-31) 112 [1; 2; 2; 2]; Mo (-229) 224 [1; 1; 2; 3]; Mo (-15) 32 [1; 1; 1; 4]; Mo 2325 112 [3; 3; 3]; Mo 555 4 [2; 3; 4]; Mo 4585 48 [1; 4; 4]; Mo 1323 16 [2; 2; 5]; Mo 1635 8 [1; 3; 5]; Mo 1023 4 [1; 2; 6]; Mo 3289 16 [1; 1; 7]; Mo (-31185) 1 [5; 6]; Mo (-135135) 4 [4; 7]; Mo (-160875) 4 [3; 8]; Mo (-109395) 2 [2; 9]; Mo (-188955) 2 [1; 10]; Mo 58503375 2 [13]]; [Mo (-1) 960 [1; 1; 1; 1; 2]; Mo (-9) 640 [2; 2; 2; 2]; Mo 3 32 [1; 2; 2; 3]; Mo 85 448 [1; 1; 3; 3]; Mo 11 32 [1; 1; 2; 4]; Mo 9 32 [1; 1; 1; 5]; Mo (-175) 88 [3; 3; 4]; Mo 245 44 [2; 4; 4]; Mo 315 88 [2; 3; 5]; Mo (-3675) 88 [1; 4; 5]; Mo 45 4 [2; 2; 6]; Mo (-405) 8 [1; 3; 6]; Mo (-195) 4 [1; 2; 7]; Mo (-195) 2 [1; 1; 8]; Mo (-10395) 104 [6; 6]; Mo 945 4 [5; 7]; Mo (-1575) 4 [4; 8]; Mo 3825 4 [3; 9]; Mo (-14535) 4 [2; 10]; Mo 101745 4 [1; 11]]; [Mo 1 1920 [1; 1; 1; 2; 2]; Mo 1 2304 [1; 1; 1; 1; 3]; Mo (-85) 224 [2; 2; 2; 3]; Mo (-139) 112 [1; 2; 3; 3]; Mo (-1497) 1120 [1; 2; 2; 4]; Mo (-127) 84 [1; 1; 3; 4]; Mo (-139) 80 [1; 1; 2; 5]; Mo (-13) 16 [1; 1; 1; 6]; Mo 740 3 [3; 4; 4]; Mo 525 2 [3; 3; 5]; Mo 1155 2 [2; 4; 5]; Mo 33663 88 [1; 5; 5]; Mo 642 1 [2; 3; 6]; Mo 3193 4 [1; 4; 6]; Mo 4059 10 [2; 2; 7]; Mo 7355 8 [1; 3; 7]; Mo 2379 2 [1; 2; 8]; Mo 910 1 [1; 1; 9]; Mo (-467775) 2 [6; 7]; Mo (-495495) 2 [5; 8]; Mo (-559845) 2 [4; 9]; Mo (-686205) 2 [3; 10]; Mo (-944775) 2 [2; 11]; Mo (-1526175) 2 [1; 12]; Mo 737142525 2 [15]]; [Mo (-13) 16800 [1; 1; 2; 2; 2]; Mo (-3) 2240 [1; 1; 1; 2; 3]; Mo 765 4928 [2; 2; 3; 3]; Mo 215 1232 [1; 3; 3; 3]; Mo (-213) 1760 [2; 2; 2; 4]; Mo 61 88 [1; 2; 3; 4]; Mo 841 6336 [1; 1; 4; 4]; Mo 201 440 [1; 2; 2; 5]; Mo 241 352 [1; 1; 3; 5]; Mo 23 32 [1; 1; 2; 6]; Mo 5 12 [1; 1; 1; 7]; Mo 14945 1144 [4; 4; 4]; Mo (-5215) 143 [3; 4; 5]; Mo (-7497) 572 [2; 5; 5]; Mo (-48915) 1144 [3; 3; 6]; Mo 83679 1144 [2; 4; 6]; Mo (-24192) 143 [1; 5; 6]; Mo (-525) 8 [2; 3; 7]; Mo (-297) 2 [1; 4; 7]; Mo 45 1 [2; 2; 8]; Mo (-1095) 4 [1; 3; 8]; Mo (-1215) 4 [1; 2; 9]; Mo (-765) 2 [1; 1; 10]; Mo 2079 1 [7; 7]; Mo (-4725) 1 [6; 8]; Mo 6930 1 [5; 9]; Mo (-13005) 1 [4; 10]; Mo 29070 1 [3; 11]; Mo (-20349) 1 [2; 12]; Mo 780045 4 [1; 13]]]];
 [[[]; []; []; []; []; []; []; []; []; []; []; []; []; []; []; []; []; [Mo 487 13440 [1; 1; 1; 2; 2]; Mo 359 16128 [1; 1; 1; 1; 3]; Mo (-797) 224 [2; 2; 2; 3]; Mo (-105) 8 [1; 2; 3; 3]; Mo (-2337) 160 [1; 2; 2; 4]; Mo (-863) 48 [1; 1; 3; 4]; Mo (-1713) 80 [1; 1; 2; 5]; Mo (-11) 1 [1; 1; 1; 6]; Mo 70735 48 [3; 4; 4]; Mo 25185 16 [3; 3; 5]; Mo 28035 8 [2; 4; 5]; Mo 453537 176 [1; 5; 5]; Mo 15675 4 [2; 3; 6]; Mo 21581 4 [1; 4; 6]; Mo 202059 80 [2; 2; 7]; Mo 12493 2 [1; 3; 7]; Mo 16575 2 [1; 2; 8]; Mo 111605 16 [1; 1; 9]; Mo (-4459455) 4 [6; 7]; Mo (-4729725) 4 [5; 8]; Mo (-5360355) 4 [4; 9]; Mo (-6613425) 4 [3; 10]; Mo (-9258795) 4 [2; 11]; Mo (-16380945) 4 [1; 12]; Mo 3053876175 2 [15]]; [Mo (-1) 82944 [1; 1; 1; 1; 1; 1]; Mo 197 33600 [1; 1; 2; 2; 2]; Mo 101 3360 [1; 1; 1; 2; 3]; Mo 1 72 [1; 1; 1; 1; 4]; Mo 1219 4928 [2; 2; 3; 3]; Mo (-6095) 7392 [1; 3; 3; 3]; Mo 951 1760 [2; 2; 2; 4]; Mo (-509) 132 [1; 2; 3; 4]; Mo (-18907) 6336 [1; 1; 4; 4]; Mo (-2853) 1760 [1; 2; 2; 5]; Mo (-2383) 352 [1; 1; 3; 5]; Mo (-235) 32 [1; 1; 2; 6]; Mo (-611) 96 [1; 1; 1; 7]; Mo (-5145) 572 [4; 4; 4]; Mo 19845 572 [3; 4; 5]; Mo (-35721) 572 [2; 5; 5]; Mo 4425 104 [3; 3; 6]; Mo (-2541) 13 [2; 4; 6]; Mo 27153 26 [1; 5; 6]; Mo (-885) 8 [2; 3; 7]; Mo 8841 8 [1; 4; 7]; Mo (-1035) 4 [2; 2; 8]; Mo 11325 8 [1; 3; 8]; Mo 5865 4 [1; 2; 9]; Mo 24225 8 [1; 1; 10]; Mo (-9009) 8 [7; 7]; Mo 10395 4 [6; 8]; Mo (-16065) 4 [5; 9]; Mo 33915 4 [4; 10]; Mo (-101745) 4 [3; 11]; Mo 468027 4 [2; 12]; Mo (-3900225) 4 [1; 13]]];
  [[]; []; []; []; []; []; []; []; []; []; []; []; []; []; []; []; []; [Mo (-17) 11520 [1; 1; 1; 1; 2]; Mo 1261 22400 [2; 2; 2; 2]; Mo 227 280 [1; 2; 2; 3]; Mo 659 1344 [1; 1; 3; 3]; Mo 527 480 [1; 1; 2; 4]; Mo 17 32 [1; 1; 1; 5]; Mo (-39695) 528 [3; 3; 4]; Mo (-44471) 528 [2; 4; 4]; Mo (-15795) 88 [2; 3; 5]; Mo (-21469) 88 [1; 4; 5]; Mo (-9003) 80 [2; 2; 6]; Mo (-273) 1 [1; 3; 6]; Mo (-1417) 4 [1; 2; 7]; Mo (-4615) 16 [1; 1; 8]; Mo 2379069 104 [6; 6]; Mo 94563 2 [5; 7]; Mo 210315 4 [4; 8]; Mo 63750 1 [3; 9]; Mo 353685 4 [2; 10]; Mo 305235 2 [1; 11]; Mo (-105306075) 2 [14]]];
  [[]; []; []; []; []; []; []; []; []; []; []; []; []; []; []; []; []; [Mo (-19) 82944 [1; 1; 1; 1; 1; 1]; Mo 31609 67200 [1; 1; 2; 2; 2]; Mo 7867 6720 [1; 1; 1; 2; 3]; Mo 931 2304 [1; 1; 1; 1; 4]; Mo (-455831) 4928 [2; 2; 3; 3]; Mo (-35495) 462 [1; 3; 3; 3]; Mo (-24001) 352 [2; 2; 2; 4]; Mo (-269765) 528 [1; 2; 3; 4]; Mo (-1118929) 6336 [1; 1; 4; 4]; Mo (-533097) 1760 [1; 2; 2; 5]; Mo (-132997) 352 [1; 1; 3; 5]; Mo (-75161) 160 [1; 1; 2; 6]; Mo (-12103) 48 [1; 1; 1; 7]; Mo 70743995 6864 [4; 4; 4]; Mo 75640215 1144 [3; 4; 5]; Mo 89707149 2288 [2; 5; 5]; Mo 7685805 208 [3; 3; 6]; Mo 8524845 104 [2; 4; 6]; Mo 12676167 104 [1; 5; 6]; Mo 94830 1 [2; 3; 7]; Mo 527443 4 [1; 4; 7]; Mo 999837 16 [2; 2; 8]; Mo 156660 1 [1; 3; 8]; Mo 1692435 8 [1; 2; 9]; Mo 2924765 16 [1; 1; 10]; Mo (-115954839) 8 [7; 7]; Mo (-118908405) 4 [6; 8]; Mo (-128664585) 4 [5; 9]; Mo (-148106805) 4 [4; 10]; Mo (-185277645) 4 [3; 11]; Mo (-261627093) 4 [2; 12]; Mo (-471927225) 4 [1; 13]]];
  [[]; []; []; []; []; []; []; []; []; []; []; []; []; []; []; []; []; [Mo (-487) 13440 [1; 1; 1; 2; 2]; Mo (-359) 16128 [1; 1; 1; 1; 3]; Mo 797 224 [2; 2; 2; 3]; Mo 105 8 [1; 2; 3; 3]; Mo 2337 160 [1; 2; 2; 4]; Mo 863 48 [1; 1; 3; 4]; Mo 1713 80 [1; 1; 2; 5]; Mo 11 1 [1; 1; 1; 6]; Mo (-70735) 48 [3; 4; 4]; Mo (-25185) 16 [3; 3; 5]; Mo (-28035) 8 [2; 4; 5]; Mo (-453537) 176 [1; 5; 5]; Mo (-15675) 4 [2; 3; 6]; Mo (-21581) 4 [1; 4; 6]; Mo (-202059) 80 [2; 2; 7]; Mo (-12493) 2 [1; 3; 7]; Mo (-16575) 2 [1; 2; 8]; Mo (-111605) 16 [1; 1; 9]; Mo 4459455 4 [6; 7]; Mo 4729725 4 [5; 8]; Mo 5360355 4 [4; 9]; Mo 6613425 4 [3; 10]; Mo 9258795 4 [2; 11]; Mo 16380945 4 [1; 12]; Mo (-3053876175) 2 [15]]; [Mo (-1) 82944 [1; 1; 1; 1; 1; 1]; Mo 197 33600 [1; 1; 2; 2; 2]; Mo 101 3360 [1; 1; 1; 2; 3]; Mo 1 72 [1; 1; 1; 1; 4]; Mo 1219 4928 [2; 2; 3; 3]; Mo (-6095) 7392 [1; 3; 3; 3]; Mo 951 1760 [2; 2; 2; 4]; Mo (-509) 132 [1; 2; 3; 4]; Mo (-18907) 6336 [1; 1; 4; 4]; Mo (-2853) 1760 [1; 2; 2; 5]; Mo (-2383) 352 [1; 1; 3; 5]; Mo (-235) 32 [1; 1; 2; 6]; Mo (-611) 96 [1; 1; 1; 7]; Mo (-5145) 572 [4; 4; 4]; Mo 19845 572 [3; 4; 5]; Mo (-35721) 572 [2; 5; 5]; Mo 4425 104 [3; 3; 6]; Mo (-2541) 13 [2; 4; 6]; Mo 27153 26 [1; 5; 6]; Mo (-885) 8 [2; 3; 7]; Mo 8841 8 [1; 4; 7]; Mo (-1035) 4 [2; 2; 8]; Mo 11325 8 [1; 3; 8]; Mo 5865 4 [1; 2; 9]; Mo 24225 8 [1; 1; 10]; Mo (-9009) 8 [7; 7]; Mo 10395 4 [6; 8]; Mo (-16065) 4 [5; 9]; Mo 33915 4 [4; 10]; Mo (-101745) 4 [3; 11]; Mo 468027 4 [2; 12]; Mo (-3900225) 4 [1; 13]]]]].
