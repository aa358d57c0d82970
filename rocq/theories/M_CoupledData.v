(** GENERATED by tools/gen_coupled.py from /repo/matslise/matscs/matscs_formulas.cpp:158-end, do not edit.
    Each n x n block is the list of its rows (p, terms) of the sum h^p * (terms); a term (m, e, word) is the decimal
    literal m * 10^-e times the matrix product of the v's of the word.  Block order: (0,0), (0,n), (n,0), (n,n). *)
From Coq Require Import ZArith List.
Import ListNotations.
Inductive wterm := De (m : Z) (e : nat) (word : list nat).
Definition wentry : Type := list (nat * list wterm).

(** matscs_formulas.cpp: tDelta(0, 0..9) *)
Definition wdelta_row0 : list (list wentry) := [
 [[(0, [De 1 0 []])];
  [];
  [];
  [(0, [De 1 0 []])]];
 [[];
  [];
  [(1, [De (-5) 1 [1]]); (2, [De 5 1 [2]]); (3, [De (-5) 1 [3]]); (4, [De 5 1 [4]]); (5, [De (-5) 1 [5]]); (6, [De 5 1 [6]]); (7, [De (-5) 1 [7]])];
  []];
 [[];
  [];
  [(0, [De 5 1 [1]]); (1, [De (-15) 1 [2]]); (2, [De 3 0 [3]]); (3, [De (-5) 0 [4]]); (4, [De 75 1 [5]]); (5, [De (-105) 1 [6]]); (6, [De 14 0 [7]])];
  []];
 [[];
  [];
  [(0, [De 1 0 [2]]); (1, [De (-5) 0 [3]]); (2, [De 15 0 [4]]); (3, [De (-35) 0 [5]]); (4, [De 70 0 [6]]); (5, [De (-126) 0 [7]])];
  []];
 [[];
  [];
  [(0, [De 25 1 [3]]); (1, [De (-175) 1 [4]]); (2, [De 70 0 [5]]); (3, [De (-210) 0 [6]]); (4, [De 525 0 [7]])];
  []];
 [[];
  [];
  [(0, [De 7 0 [4]]); (1, [De (-63) 0 [5]]); (2, [De 315 0 [6]]); (3, [De (-1155) 0 [7]])];
  []];
 [[];
  [];
  [(0, [De 21 0 [5]]); (1, [De (-231) 0 [6]]); (2, [De 1386 0 [7]])];
  []];
 [[];
  [];
  [(0, [De 66 0 [6]]); (1, [De (-858) 0 [7]])];
  []];
 [[];
  [];
  [(0, [De 2145 1 [7]])];
  []];
 [[];
  [];
  [];
  []]].
(** matscs_formulas.cpp: tDelta(1, 0..9) *)
Definition wdelta_row1 : list (list wentry) := [
 [[];
  [];
  [];
  []];
 [[];
  [(0, [De 1 0 []])];
  [(1, [De (-5) 1 [1]]); (2, [De 5 1 [2]]); (3, [De (-5) 1 [3]]); (4, [De 5 1 [4]]); (5, [De (-5) 1 [5]]); (6, [De 5 1 [6]]); (7, [De (-5) 1 [7]])];
  []];
 [[(1, [De (-5) 1 [1]]); (2, [De 5 1 [2]]); (3, [De (-5) 1 [3]]); (4, [De 5 1 [4]]); (5, [De (-5) 1 [5]]); (6, [De 5 1 [6]]); (7, [De (-5) 1 [7]])];
  [];
  [(0, [De 5 1 [1]]); (1, [De (-15) 1 [2]]); (2, [De 3 0 [3]]); (3, [De (-5) 0 [4]]); (4, [De 75 1 [5]]); (5, [De (-105) 1 [6]]); (6, [De 14 0 [7]])];
  [(1, [De (-5) 1 [1]]); (2, [De 5 1 [2]]); (3, [De (-5) 1 [3]]); (4, [De 5 1 [4]]); (5, [De (-5) 1 [5]]); (6, [De 5 1 [6]]); (7, [De (-5) 1 [7]])]];
 [[(0, [De 5 1 [1]]); (1, [De (-15) 1 [2]]); (2, [De 3 0 [3]]); (3, [De (-5) 0 [4]]); (4, [De 75 1 [5]]); (5, [De (-105) 1 [6]]); (6, [De 14 0 [7]])];
  [];
  [(0, [De 15 1 [2]]); (1, [De (-125) 3 [0; 1]; De (-75) 1 [3]; De 125 3 [1; 0]]); (2, [De 125 3 [0; 2]; De 125 3 [1; 1]; De (-125) 3 [2; 0]; De 225 1 [4]]); (3, [De 125 3 [3; 0]; De (-125) 3 [1; 2]; De (-125) 3 [0; 3]; De (-525) 1 [5]; De (-125) 3 [2; 1]]); (4, [De 125 3 [2; 2]; De 125 3 [1; 3]; De 105 0 [6]; De (-125) 3 [4; 0]; De 125 3 [3; 1]; De 125 3 [0; 4]]); (5, [De (-125) 3 [2; 3]; De (-125) 3 [1; 4]; De (-125) 3 [4; 1]; De (-125) 3 [0; 5]; De 125 3 [5; 0]; De (-125) 3 [3; 2]; De (-189) 0 [7]]); (6, [De 125 3 [2; 4]; De 125 3 [5; 1]; De 125 3 [3; 3]; De 125 3 [4; 2]; De 125 3 [1; 5]; De (-125) 3 [6; 0]; De 125 3 [0; 6]])];
  [(0, [De 5 1 [1]]); (1, [De (-15) 1 [2]]); (2, [De 3 0 [3]]); (3, [De (-5) 0 [4]]); (4, [De 75 1 [5]]); (5, [De (-105) 1 [6]]); (6, [De 14 0 [7]])]];
 [[(0, [De 1 0 [2]]); (1, [De (-5) 0 [3]]); (2, [De 15 0 [4]]); (3, [De (-35) 0 [5]]); (4, [De 70 0 [6]]); (5, [De (-126) 0 [7]])];
  [];
  [(0, [De 833333333333 13 [0; 1]; De 5 0 [3]; De (-833333333333) 13 [1; 0]]); (1, [De (-25) 2 [0; 2]; De (-25) 2 [1; 1]; De 25 2 [2; 0]; De (-35) 0 [4]]); (2, [De (-5) 1 [3; 0]; De 416666666667 12 [1; 2]; De 5 1 [0; 3]; De 140 0 [5]; De 583333333333 12 [2; 1]]); (3, [De (-75) 2 [2; 2]; De (-666666666667) 12 [1; 3]; De (-420) 0 [6]; De 833333333333 12 [4; 0]; De (-108333333333) 11 [3; 1]; De (-833333333333) 12 [0; 4]]); (4, [De 1 0 [2; 3]; De 1 0 [1; 4]; De 175 2 [4; 1]; De 125 2 [0; 5]; De (-125) 2 [5; 0]; De 125 2 [3; 2]; De 1050 0 [7]]); (5, [De (-133333333333) 11 [2; 4]; De (-258333333333) 11 [5; 1]; De (-15) 1 [3; 3]; De (-191666666667) 11 [4; 2]; De (-141666666667) 11 [1; 5]; De 175 2 [6; 0]; De (-175) 2 [0; 6]])];
  [(0, [De 1 0 [2]]); (1, [De (-5) 0 [3]]); (2, [De 15 0 [4]]); (3, [De (-35) 0 [5]]); (4, [De 70 0 [6]]); (5, [De (-126) 0 [7]])]];
 [[(0, [De 25 1 [3]]); (1, [De (-175) 1 [4]]); (2, [De 70 0 [5]]); (3, [De (-210) 0 [6]]); (4, [De 525 0 [7]])];
  [];
  [(0, [De 125 3 [0; 2]; De 125 3 [1; 1]; De (-125) 3 [2; 0]; De 175 1 [4]]); (1, [De 625 3 [3; 0]; De (-5) 1 [1; 2]; De (-625) 3 [0; 3]; De (-1575) 1 [5]; De (-75) 2 [2; 1]]); (2, [De 1625 3 [2; 2]; De 1375 3 [1; 3]; De 7875 1 [6]; De (-1875) 3 [4; 0]; De 2625 3 [3; 1]; De 1875 3 [0; 4]]); (3, [De (-325) 2 [2; 3]; De (-3125) 3 [1; 4]; De (-6875) 3 [4; 1]; De (-4375) 3 [0; 5]; De 4375 3 [5; 0]; De (-425) 2 [3; 2]; De (-28875) 1 [7]]); (4, [De 6 0 [2; 4]; De 15 0 [5; 1]; De 7 0 [3; 3]; De 95 1 [4; 2]; De 625 2 [1; 5]; De (-875) 2 [6; 0]; De 875 2 [0; 6]])];
  [(0, [De 25 1 [3]]); (1, [De (-175) 1 [4]]); (2, [De 70 0 [5]]); (3, [De (-210) 0 [6]]); (4, [De 525 0 [7]])]];
 [[(0, [De 7 0 [4]]); (1, [De (-63) 0 [5]]); (2, [De 315 0 [6]]); (3, [De (-1155) 0 [7]])];
  [];
  [(0, [De (-25) 2 [3; 0]; De 2 1 [1; 2]; De 25 2 [0; 3]; De 63 0 [5]; De 3 1 [2; 1]]); (1, [De (-15) 1 [2; 2]; De (-125) 2 [1; 3]; De (-693) 0 [6]; De 175 2 [4; 0]; De (-25) 1 [3; 1]; De (-175) 2 [0; 4]]); (2, [De 505 2 [2; 3]; De 475 2 [1; 4]; De 115 1 [4; 1]; De 7 0 [0; 5]; De (-7) 0 [5; 0]; De 67 1 [3; 2]; De 4158 0 [7]]); (3, [De (-1375) 2 [2; 4]; De (-385) 1 [5; 1]; De (-1625) 2 [3; 3]; De (-225) 1 [4; 2]; De (-14) 0 [1; 5]; De 21 0 [6; 0]; De (-21) 0 [0; 6]])];
  [(0, [De 7 0 [4]]); (1, [De (-63) 0 [5]]); (2, [De 315 0 [6]]); (3, [De (-1155) 0 [7]])]];
 [[(0, [De 21 0 [5]]); (1, [De (-231) 0 [6]]); (2, [De 1386 0 [7]])];
  [];
  [(0, [De 5 1 [2; 2]; De 416666666667 12 [1; 3]; De 231 0 [6]; De (-583333333333) 12 [4; 0]; De 833333333333 12 [3; 1]; De 583333333333 12 [0; 4]]); (1, [De (-375) 2 [2; 3]; De (-35) 1 [1; 4]; De (-875) 2 [4; 1]; De (-525) 2 [0; 5]; De 525 2 [5; 0]; De (-5) 0 [3; 2]; De (-3003) 0 [7]]); (2, [De 168333333333 10 [2; 4]; De 495833333333 10 [5; 1]; De 20 0 [3; 3]; De 279166666667 10 [4; 2]; De 169166666667 10 [1; 5]; De (-2625) 2 [6; 0]; De 2625 2 [0; 6]])];
  [(0, [De 21 0 [5]]); (1, [De (-231) 0 [6]]); (2, [De 1386 0 [7]])]];
 [[(0, [De 66 0 [6]]); (1, [De (-858) 0 [7]])];
  [];
  [(0, [De 107142857143 11 [2; 3]; De 1 0 [1; 4]; De 25 1 [4; 1]; De 15 1 [0; 5]; De (-15) 1 [5; 0]; De 142857142857 11 [3; 2]; De 858 0 [7]]); (1, [De (-105) 1 [2; 4]; De (-315) 1 [5; 1]; De (-125) 1 [3; 3]; De (-175) 1 [4; 2]; De (-105) 1 [1; 5]; De 165 1 [6; 0]; De (-165) 1 [0; 6]])];
  [(0, [De 66 0 [6]]); (1, [De (-858) 0 [7]])]];
 [[(0, [De 2145 1 [7]])];
  [];
  [(0, [De 2625 3 [2; 4]; De 7875 3 [5; 1]; De 3125 3 [3; 3]; De 4375 3 [4; 2]; De 2625 3 [1; 5]; De (-4125) 3 [6; 0]; De 4125 3 [0; 6]])];
  [(0, [De 2145 1 [7]])]]].
(** matscs_formulas.cpp: tDelta(2, 0..9) *)
Definition wdelta_row2 : list (list wentry) := [
 [[];
  [];
  [];
  []];
 [[];
  [];
  [];
  []];
 [[];
  [];
  [];
  []];
 [[(0, [De (-5) 1 [1]]); (1, [De 15 1 [2]]); (2, [De (-3) 0 [3]]); (3, [De 5 0 [4]]); (4, [De (-75) 1 [5]]); (5, [De 105 1 [6]]); (6, [De (-14) 0 [7]])];
  [(1, [De (-5) 1 [1]]); (2, [De 5 1 [2]]); (3, [De (-5) 1 [3]]); (4, [De 5 1 [4]]); (5, [De (-5) 1 [5]]); (6, [De 5 1 [6]])];
  [(0, [De (-15) 1 [2]]); (1, [De 75 1 [3]; De (-125) 3 [0; 1]; De 125 3 [1; 0]]); (2, [De 125 3 [0; 2]; De 125 3 [1; 1]; De (-125) 3 [2; 0]; De (-225) 1 [4]]); (3, [De 125 3 [3; 0]; De (-125) 3 [1; 2]; De (-125) 3 [0; 3]; De 525 1 [5]; De (-125) 3 [2; 1]]); (4, [De 125 3 [2; 2]; De 125 3 [1; 3]; De (-105) 0 [6]; De (-125) 3 [4; 0]; De 125 3 [3; 1]; De 125 3 [0; 4]]); (5, [De (-125) 3 [2; 3]; De (-125) 3 [1; 4]; De (-125) 3 [4; 1]; De (-125) 3 [0; 5]; De 125 3 [5; 0]; De (-125) 3 [3; 2]; De 189 0 [7]]); (6, [De 125 3 [2; 4]; De 125 3 [5; 1]; De 125 3 [3; 3]; De 125 3 [4; 2]; De 125 3 [1; 5]; De (-125) 3 [6; 0]; De 125 3 [0; 6]])];
  [(0, [De 5 1 [1]]); (1, [De (-15) 1 [2]]); (2, [De 3 0 [3]]); (3, [De (-5) 0 [4]]); (4, [De 75 1 [5]]); (5, [De (-105) 1 [6]]); (6, [De 14 0 [7]])]];
 [[(0, [De (-15) 1 [2]]); (1, [De 75 1 [3]; De (-125) 3 [0; 1]; De 125 3 [1; 0]]); (2, [De 125 3 [0; 2]; De 125 3 [1; 1]; De (-125) 3 [2; 0]; De (-225) 1 [4]]); (3, [De 125 3 [3; 0]; De (-125) 3 [1; 2]; De (-125) 3 [0; 3]; De (-125) 3 [2; 1]; De 525 1 [5]]); (4, [De 125 3 [2; 2]; De 125 3 [3; 1]; De (-105) 0 [6]; De (-125) 3 [4; 0]; De 125 3 [1; 3]; De 125 3 [0; 4]]); (5, [De (-125) 3 [2; 3]; De (-125) 3 [1; 4]; De (-125) 3 [4; 1]; De (-125) 3 [0; 5]; De 125 3 [5; 0]; De (-125) 3 [3; 2]; De 189 0 [7]])];
  [(0, [De 5 1 [1]]); (1, [De (-15) 1 [2]]); (2, [De 3 0 [3]]); (3, [De (-5) 0 [4]]); (4, [De 75 1 [5]]); (5, [De (-105) 1 [6]])];
  [(0, [De (-75) 1 [3]]); (1, [De (-25) 2 [1; 1]; De 525 1 [4]]); (2, [De 25 2 [1; 2]; De 75 2 [2; 1]; De (-210) 0 [5]]); (3, [De (-75) 2 [2; 2]; De 630 0 [6]; De (-15) 1 [3; 1]; De (-25) 2 [1; 3]]); (4, [De 75 2 [2; 3]; De 25 1 [4; 1]; De 25 2 [1; 4]; De (-1575) 0 [7]; De 15 1 [3; 2]]); (5, [De (-75) 2 [2; 4]; De (-15) 1 [3; 3]; De (-25) 2 [1; 5]; De (-25) 1 [4; 2]; De (-375) 2 [5; 1]])];
  [(0, [De 15 1 [2]]); (1, [De (-125) 3 [0; 1]; De (-75) 1 [3]; De 125 3 [1; 0]]); (2, [De 125 3 [0; 2]; De 125 3 [1; 1]; De (-125) 3 [2; 0]; De 225 1 [4]]); (3, [De 125 3 [3; 0]; De (-125) 3 [1; 2]; De (-125) 3 [0; 3]; De (-125) 3 [2; 1]; De (-525) 1 [5]]); (4, [De 125 3 [2; 2]; De 125 3 [3; 1]; De 105 0 [6]; De (-125) 3 [4; 0]; De 125 3 [1; 3]; De 125 3 [0; 4]]); (5, [De (-125) 3 [2; 3]; De (-125) 3 [1; 4]; De (-125) 3 [4; 1]; De (-125) 3 [0; 5]; De 125 3 [5; 0]; De (-125) 3 [3; 2]; De (-189) 0 [7]])]];
 [[(0, [De (-5) 0 [3]; De 833333333333 13 [0; 1]; De (-833333333333) 13 [1; 0]]); (1, [De (-25) 2 [0; 2]; De (-25) 2 [1; 1]; De 25 2 [2; 0]; De 35 0 [4]]); (2, [De (-5) 1 [3; 0]; De 416666666667 12 [1; 2]; De 5 1 [0; 3]; De 583333333333 12 [2; 1]; De (-140) 0 [5]]); (3, [De (-75) 2 [2; 2]; De (-108333333333) 11 [3; 1]; De 420 0 [6]; De 833333333333 12 [4; 0]; De (-666666666667) 12 [1; 3]; De (-833333333333) 12 [0; 4]]); (4, [De 1 0 [2; 3]; De 1 0 [1; 4]; De 175 2 [4; 1]; De 125 2 [0; 5]; De (-125) 2 [5; 0]; De 125 2 [3; 2]; De (-1050) 0 [7]])];
  [(0, [De 1 0 [2]]); (1, [De (-5) 0 [3]]); (2, [De 15 0 [4]]); (3, [De (-35) 0 [5]]); (4, [De 70 0 [6]])];
  [(0, [De 833333333333 13 [1; 1]; De (-35) 0 [4]]); (1, [De (-208333333333) 13 [1; 0; 0]; De 416666666667 13 [0; 1; 0]; De (-1) 0 [2; 1]; De (-25) 2 [1; 2]; De 315 0 [5]; De (-208333333333) 13 [0; 0; 1]]); (2, [De 208333333333 13 [0; 1; 1]; De (-416666666667) 13 [0; 2; 0]; De 208333333333 13 [1; 0; 1]; De 15 1 [2; 2]; De 5 1 [1; 3]; De (-1575) 0 [6]; De (-416666666667) 13 [1; 1; 0]; De 208333333333 13 [0; 0; 2]; De 425 2 [3; 1]; De 208333333333 13 [2; 0; 0]]); (3, [De (-225) 2 [2; 3]; De (-208333333333) 13 [1; 0; 2]; De (-208333333333) 13 [2; 0; 1]; De (-120833333333) 10 [4; 1]; De (-208333333333) 13 [0; 2; 1]; De (-208333333333) 13 [1; 1; 1]; De 416666666667 13 [1; 2; 0]; De (-208333333333) 13 [3; 0; 0]; De 416666666667 13 [0; 3; 0]; De 5775 0 [7]; De 416666666667 13 [2; 1; 0]; De (-525) 2 [3; 2]; De (-208333333333) 13 [0; 1; 2]; De (-208333333333) 13 [0; 0; 3]; De (-833333333333) 12 [1; 4]]); (4, [De 325 2 [2; 4]; De 208333333333 13 [0; 0; 4]; De 208333333333 13 [0; 1; 3]; De (-416666666667) 13 [1; 3; 0]; De 208333333333 13 [1; 0; 3]; De (-416666666667) 13 [0; 4; 0]; De 208333333333 13 [4; 0; 0]; De 675 2 [3; 3]; De 208333333333 13 [2; 0; 2]; De 208333333333 13 [3; 0; 1]; De 208333333333 13 [1; 2; 1]; De (-416666666667) 13 [2; 2; 0]; De 1375 2 [4; 2]; De 208333333333 13 [1; 1; 2]; De (-416666666667) 13 [3; 1; 0]; De 125 2 [1; 5]; De 208333333333 13 [0; 3; 1]; De 275 1 [5; 1]; De 208333333333 13 [0; 2; 2]; De 208333333333 13 [2; 1; 1]])];
  [(0, [De 833333333333 13 [0; 1]; De 5 0 [3]; De (-833333333333) 13 [1; 0]]); (1, [De (-25) 2 [0; 2]; De (-25) 2 [1; 1]; De 25 2 [2; 0]; De (-35) 0 [4]]); (2, [De (-5) 1 [3; 0]; De 416666666667 12 [1; 2]; De 5 1 [0; 3]; De 583333333333 12 [2; 1]; De 140 0 [5]]); (3, [De (-75) 2 [2; 2]; De (-108333333333) 11 [3; 1]; De (-420) 0 [6]; De 833333333333 12 [4; 0]; De (-666666666667) 12 [1; 3]; De (-833333333333) 12 [0; 4]]); (4, [De 1 0 [2; 3]; De 1 0 [1; 4]; De 175 2 [4; 1]; De 125 2 [0; 5]; De (-125) 2 [5; 0]; De 125 2 [3; 2]; De 1050 0 [7]])]];
 [[(0, [De 125 3 [0; 2]; De 125 3 [1; 1]; De (-125) 3 [2; 0]; De (-175) 1 [4]]); (1, [De 625 3 [3; 0]; De (-5) 1 [1; 2]; De (-625) 3 [0; 3]; De (-75) 2 [2; 1]; De 1575 1 [5]]); (2, [De 1625 3 [2; 2]; De 2625 3 [3; 1]; De (-7875) 1 [6]; De (-1875) 3 [4; 0]; De 1375 3 [1; 3]; De 1875 3 [0; 4]]); (3, [De (-325) 2 [2; 3]; De (-3125) 3 [1; 4]; De (-6875) 3 [4; 1]; De (-4375) 3 [0; 5]; De 4375 3 [5; 0]; De (-425) 2 [3; 2]; De 28875 1 [7]])];
  [(0, [De 25 1 [3]]); (1, [De (-175) 1 [4]]); (2, [De 70 0 [5]]); (3, [De (-210) 0 [6]])];
  [(0, [De 104166666667 13 [1; 0; 0]; De (-208333333333) 13 [0; 1; 0]; De 375 3 [2; 1]; De 125 3 [1; 2]; De (-1575) 1 [5]; De 104166666667 13 [0; 0; 1]]); (1, [De (-3125) 5 [0; 1; 1]; De 625 4 [0; 2; 0]; De (-416666666667) 13 [1; 0; 1]; De (-15) 1 [2; 2]; De (-625) 3 [1; 3]; De 17325 1 [6]; De 729166666667 13 [1; 1; 0]; De (-3125) 5 [0; 0; 2]; De (-4375) 3 [3; 1]; De (-3125) 5 [2; 0; 0]]); (2, [De 4125 3 [2; 3]; De (-114583333333) 12 [1; 2; 0]; De 104166666667 12 [2; 0; 1]; De 23125 3 [4; 1]; De 729166666667 13 [0; 2; 1]; De 625 4 [1; 1; 1]; De 625 4 [1; 0; 2]; De 625 4 [3; 0; 0]; De (-125) 3 [0; 3; 0]; De (-10395) 0 [7]; De (-177083333333) 12 [2; 1; 0]; De 8875 3 [3; 2]; De 520833333333 13 [0; 1; 2]; De 625 4 [0; 0; 3]; De 1875 3 [1; 4]]); (3, [De (-9375) 3 [2; 4]; De (-104166666667) 12 [0; 0; 4]; De (-833333333333) 13 [0; 1; 3]; De 177083333333 12 [1; 3; 0]; De (-9375) 5 [1; 0; 3]; De 208333333333 12 [0; 4; 0]; De (-104166666667) 12 [4; 0; 0]; De (-175) 1 [3; 3]; De (-125) 3 [2; 0; 2]; De (-197916666667) 12 [3; 0; 1]; De (-104166666667) 12 [1; 2; 1]; De 21875 5 [2; 2; 0]; De (-35625) 3 [4; 2]; De (-833333333333) 13 [1; 1; 2]; De 333333333333 12 [3; 1; 0]; De (-4375) 3 [1; 5]; De (-135416666667) 12 [0; 3; 1]; De (-83125) 3 [5; 1]; De (-9375) 5 [0; 2; 2]; De (-125) 3 [2; 1; 1]])];
  [(0, [De 125 3 [0; 2]; De 125 3 [1; 1]; De (-125) 3 [2; 0]; De 175 1 [4]]); (1, [De 625 3 [3; 0]; De (-5) 1 [1; 2]; De (-625) 3 [0; 3]; De (-75) 2 [2; 1]; De (-1575) 1 [5]]); (2, [De 1625 3 [2; 2]; De 2625 3 [3; 1]; De 7875 1 [6]; De (-1875) 3 [4; 0]; De 1375 3 [1; 3]; De 1875 3 [0; 4]]); (3, [De (-325) 2 [2; 3]; De (-3125) 3 [1; 4]; De (-6875) 3 [4; 1]; De (-4375) 3 [0; 5]; De 4375 3 [5; 0]; De (-425) 2 [3; 2]; De (-28875) 1 [7]])]];
 [[(0, [De (-25) 2 [3; 0]; De 2 1 [1; 2]; De 25 2 [0; 3]; De 3 1 [2; 1]; De (-63) 0 [5]]); (1, [De (-15) 1 [2; 2]; De (-25) 1 [3; 1]; De 693 0 [6]; De 175 2 [4; 0]; De (-125) 2 [1; 3]; De (-175) 2 [0; 4]]); (2, [De 505 2 [2; 3]; De 475 2 [1; 4]; De 115 1 [4; 1]; De 7 0 [0; 5]; De (-7) 0 [5; 0]; De 67 1 [3; 2]; De (-4158) 0 [7]])];
  [(0, [De 7 0 [4]]); (1, [De (-63) 0 [5]]); (2, [De 315 0 [6]])];
  [(0, [De 125 4 [0; 1; 1]; De (-25) 3 [0; 2; 0]; De 166666666667 13 [1; 0; 1]; De 6 1 [2; 2]; De 25 2 [1; 3]; De (-693) 0 [6]; De (-291666666667) 13 [1; 1; 0]; De 125 4 [0; 0; 2]; De 15 1 [3; 1]; De 125 4 [2; 0; 0]]); (1, [De (-375) 2 [2; 3]; De (-625) 4 [1; 0; 2]; De (-125) 3 [2; 0; 1]; De (-1925) 2 [4; 1]; De (-75) 3 [0; 2; 1]; De (-625) 4 [1; 1; 1]; De 1125 4 [1; 2; 0]; De (-625) 4 [3; 0; 0]; De 125 3 [0; 3; 0]; De 9009 0 [7]; De 2 1 [2; 1; 0]; De (-75) 1 [3; 2]; De (-5) 2 [0; 1; 2]; De (-625) 4 [0; 0; 3]; De (-175) 2 [1; 4]]); (2, [De 1425 2 [2; 4]; De 1875 4 [0; 0; 4]; De 1375 4 [0; 1; 3]; De (-3) 1 [1; 3; 0]; De 1625 4 [1; 0; 3]; De (-375) 3 [0; 4; 0]; De 1875 4 [4; 0; 0]; De 255 1 [3; 3]; De 2375 4 [2; 0; 2]; De 475 3 [3; 0; 1]; De 191666666667 12 [1; 2; 1]; De (-4) 1 [2; 2; 0]; De 4925 2 [4; 2]; De 133333333333 12 [1; 1; 2]; De (-7375) 4 [3; 1; 0]; De 7 0 [1; 5]; De 2625 4 [0; 3; 1]; De 12075 2 [5; 1]; De 1625 4 [0; 2; 2]; De 2375 4 [2; 1; 1]])];
  [(0, [De (-25) 2 [3; 0]; De 2 1 [1; 2]; De 25 2 [0; 3]; De 3 1 [2; 1]; De 63 0 [5]]); (1, [De (-15) 1 [2; 2]; De (-25) 1 [3; 1]; De (-693) 0 [6]; De 175 2 [4; 0]; De (-125) 2 [1; 3]; De (-175) 2 [0; 4]]); (2, [De 505 2 [2; 3]; De 475 2 [1; 4]; De 115 1 [4; 1]; De 7 0 [0; 5]; De (-7) 0 [5; 0]; De 67 1 [3; 2]; De 4158 0 [7]])]];
 [[(0, [De 5 1 [2; 2]; De 833333333333 12 [3; 1]; De (-231) 0 [6]; De (-583333333333) 12 [4; 0]; De 416666666667 12 [1; 3]; De 583333333333 12 [0; 4]]); (1, [De (-375) 2 [2; 3]; De (-35) 1 [1; 4]; De (-875) 2 [4; 1]; De (-525) 2 [0; 5]; De 525 2 [5; 0]; De (-5) 0 [3; 2]; De 3003 0 [7]])];
  [(0, [De 21 0 [5]]); (1, [De (-231) 0 [6]])];
  [(0, [De 125 2 [2; 3]; De 208333333333 13 [1; 0; 2]; De 416666666667 13 [2; 0; 1]; De 583333333333 11 [4; 1]; De 25 3 [0; 2; 1]; De 208333333333 13 [1; 1; 1]; De (-375) 4 [1; 2; 0]; De 208333333333 13 [3; 0; 0]; De (-416666666667) 13 [0; 3; 0]; De (-3003) 0 [7]; De (-666666666667) 13 [2; 1; 0]; De 25 1 [3; 2]; De 166666666667 13 [0; 1; 2]; De 208333333333 13 [0; 0; 3]; De 583333333333 12 [1; 4]]); (1, [De (-105) 1 [2; 4]; De (-145833333333) 12 [0; 0; 4]; De (-104166666667) 12 [0; 1; 3]; De 229166666667 12 [1; 3; 0]; De (-125) 3 [1; 0; 3]; De 291666666667 12 [0; 4; 0]; De (-145833333333) 12 [4; 0; 0]; De (-1875) 2 [3; 3]; De (-1875) 4 [2; 0; 2]; De (-416666666667) 12 [3; 0; 1]; De (-15) 2 [1; 2; 1]; De 3125 4 [2; 2; 0]; De (-35) 0 [4; 2]; De (-1) 1 [1; 1; 2]; De 625 3 [3; 1; 0]; De (-525) 2 [1; 5]; De (-208333333333) 12 [0; 3; 1]; De (-84) 0 [5; 1]; De (-125) 3 [0; 2; 2]; De (-1875) 4 [2; 1; 1]])];
  [(0, [De 5 1 [2; 2]; De 833333333333 12 [3; 1]; De 231 0 [6]; De (-583333333333) 12 [4; 0]; De 416666666667 12 [1; 3]; De 583333333333 12 [0; 4]]); (1, [De (-375) 2 [2; 3]; De (-35) 1 [1; 4]; De (-875) 2 [4; 1]; De (-525) 2 [0; 5]; De 525 2 [5; 0]; De (-5) 0 [3; 2]; De (-3003) 0 [7]])]];
 [[(0, [De 107142857143 11 [2; 3]; De 1 0 [1; 4]; De 25 1 [4; 1]; De 15 1 [0; 5]; De (-15) 1 [5; 0]; De 142857142857 11 [3; 2]; De (-858) 0 [7]])];
  [(0, [De 66 0 [6]])];
  [(0, [De 3 0 [2; 4]; De 416666666667 13 [0; 0; 4]; De 297619047619 13 [0; 1; 3]; De (-654761904762) 13 [1; 3; 0]; De 357142857143 13 [1; 0; 3]; De (-833333333333) 13 [0; 4; 0]; De 416666666667 13 [4; 0; 0]; De 535714285714 11 [3; 3]; De 535714285714 13 [2; 0; 2]; De 119047619048 12 [3; 0; 1]; De 428571428571 13 [1; 2; 1]; De (-892857142857) 13 [2; 2; 0]; De 10 0 [4; 2]; De 285714285714 13 [1; 1; 2]; De (-178571428571) 12 [3; 1; 0]; De 15 1 [1; 5]; De 595238095238 13 [0; 3; 1]; De 225 1 [5; 1]; De 357142857143 13 [0; 2; 2]; De 535714285714 13 [2; 1; 1]])];
  [(0, [De 107142857143 11 [2; 3]; De 1 0 [1; 4]; De 25 1 [4; 1]; De 15 1 [0; 5]; De (-15) 1 [5; 0]; De 142857142857 11 [3; 2]; De 858 0 [7]])]]].
(** matscs_formulas.cpp: tDelta(3, 0..9) *)
Definition wdelta_row3 : list (list wentry) := [
 [[];
  [];
  [];
  []];
 [[];
  [];
  [];
  []];
 [[];
  [];
  [];
  []];
 [[];
  [];
  [];
  []];
 [[];
  [];
  [];
  []];
 [[(0, [De (-166666666667) 12 [0; 1]; De 25 1 [3]; De 166666666667 12 [1; 0]]); (1, [De 5 1 [0; 2]; De 25 2 [1; 1]; De (-5) 1 [2; 0]; De (-175) 1 [4]]); (2, [De 1 0 [3; 0]; De (-583333333333) 12 [1; 2]; De (-1) 0 [0; 3]; De (-416666666667) 12 [2; 1]; De 70 0 [5]]); (3, [De 75 2 [2; 2]; De 666666666667 12 [3; 1]; De (-210) 0 [6]; De (-166666666667) 11 [4; 0]; De 108333333333 11 [1; 3]; De 166666666667 11 [0; 4]]); (4, [De (-125) 2 [2; 3]; De (-175) 2 [1; 4]; De (-1) 0 [4; 1]; De (-25) 1 [0; 5]; De 25 1 [5; 0]; De (-1) 0 [3; 2]; De 525 0 [7]])];
  [(0, [De (-5) 1 [2]]); (1, [De 25 1 [3]; De (-125) 3 [0; 1]; De 125 3 [1; 0]]); (2, [De 125 3 [0; 2]; De 125 3 [1; 1]; De (-125) 3 [2; 0]; De (-75) 1 [4]]); (3, [De 125 3 [3; 0]; De (-125) 3 [1; 2]; De (-125) 3 [0; 3]; De 175 1 [5]; De (-125) 3 [2; 1]]); (4, [De 125 3 [2; 2]; De 125 3 [1; 3]; De (-35) 0 [6]; De (-125) 3 [4; 0]; De 125 3 [3; 1]; De 125 3 [0; 4]])];
  [(0, [De (-375) 3 [0; 2]; De (-291666666667) 12 [1; 1]; De 375 3 [2; 0]; De 175 1 [4]]); (1, [De (-208333333333) 13 [1; 0; 0]; De 416666666667 13 [0; 1; 0]; De (-1875) 3 [3; 0]; De 1875 3 [0; 3]; De (-1575) 1 [5]; De 125 2 [1; 2]; De 125 2 [2; 1]; De (-208333333333) 13 [0; 0; 1]]); (2, [De 208333333333 13 [0; 1; 1]; De (-416666666667) 13 [0; 2; 0]; De 208333333333 13 [1; 0; 1]; De (-3375) 3 [2; 2]; De (-3625) 3 [1; 3]; De 7875 1 [6]; De (-416666666667) 13 [1; 1; 0]; De 5625 3 [4; 0]; De 208333333333 13 [0; 0; 2]; De (-3625) 3 [3; 1]; De 208333333333 13 [2; 0; 0]; De (-5625) 3 [0; 4]]); (3, [De 75 1 [2; 3]; De (-208333333333) 13 [1; 0; 2]; De (-208333333333) 13 [2; 0; 1]; De 854166666667 11 [4; 1]; De (-208333333333) 13 [0; 2; 1]; De (-208333333333) 13 [1; 1; 1]; De 416666666667 13 [1; 2; 0]; De (-208333333333) 13 [0; 0; 3]; De 416666666667 13 [0; 3; 0]; De 13125 3 [0; 5]; De (-13125) 3 [5; 0]; De 416666666667 13 [2; 1; 0]; De 75 1 [3; 2]; De (-28875) 1 [7]; De (-208333333333) 13 [3; 0; 0]; De (-208333333333) 13 [0; 1; 2]; De 854166666667 11 [1; 4]]); (4, [De 208333333333 13 [0; 0; 4]; De (-416666666667) 13 [0; 4; 0]; De 208333333333 13 [4; 0; 0]; De 208333333333 13 [1; 2; 1]; De (-416666666667) 13 [1; 3; 0]; De (-1475) 2 [2; 4]; De (-1425) 2 [3; 3]; De 208333333333 13 [2; 0; 2]; De (-416666666667) 13 [2; 2; 0]; De 2625 2 [6; 0]; De 208333333333 13 [0; 1; 3]; De 208333333333 13 [2; 1; 1]; De 208333333333 13 [1; 0; 3]; De (-175) 1 [5; 1]; De (-416666666667) 13 [3; 1; 0]; De (-2625) 2 [0; 6]; De 208333333333 13 [0; 2; 2]; De 208333333333 13 [3; 0; 1]; De (-1475) 2 [4; 2]; De 208333333333 13 [1; 1; 2]; De (-175) 1 [1; 5]; De 208333333333 13 [0; 3; 1]])];
  [(0, [De (-25) 1 [3]; De 833333333333 13 [0; 1]; De (-833333333333) 13 [1; 0]]); (1, [De (-25) 2 [0; 2]; De (-25) 2 [1; 1]; De 25 2 [2; 0]; De 175 1 [4]]); (2, [De (-5) 1 [3; 0]; De 416666666667 12 [1; 2]; De 5 1 [0; 3]; De 583333333333 12 [2; 1]; De (-70) 0 [5]]); (3, [De (-75) 2 [2; 2]; De (-108333333333) 11 [3; 1]; De 210 0 [6]; De 833333333333 12 [4; 0]; De (-666666666667) 12 [1; 3]; De (-833333333333) 12 [0; 4]]); (4, [De 1 0 [2; 3]; De 1 0 [1; 4]; De 175 2 [4; 1]; De 125 2 [0; 5]; De (-125) 2 [5; 0]; De 125 2 [3; 2]; De (-525) 0 [7]])]];
 [[(0, [De (-375) 3 [0; 2]; De (-291666666667) 12 [1; 1]; De 375 3 [2; 0]; De 175 1 [4]]); (1, [De (-208333333333) 13 [1; 0; 0]; De 416666666667 13 [0; 1; 0]; De (-1875) 3 [3; 0]; De 1875 3 [0; 3]; De 125 2 [2; 1]; De 125 2 [1; 2]; De (-1575) 1 [5]; De (-208333333333) 13 [0; 0; 1]]); (2, [De (-416666666667) 13 [1; 1; 0]; De (-416666666667) 13 [0; 2; 0]; De 208333333333 13 [1; 0; 1]; De (-3375) 3 [2; 2]; De (-3625) 3 [1; 3]; De 7875 1 [6]; De 208333333333 13 [0; 1; 1]; De 5625 3 [4; 0]; De 208333333333 13 [0; 0; 2]; De (-3625) 3 [3; 1]; De 208333333333 13 [2; 0; 0]; De (-5625) 3 [0; 4]]); (3, [De 75 1 [2; 3]; De (-208333333333) 13 [1; 0; 2]; De (-208333333333) 13 [2; 0; 1]; De 13125 3 [0; 5]; De (-208333333333) 13 [0; 2; 1]; De (-208333333333) 13 [1; 1; 1]; De 416666666667 13 [1; 2; 0]; De (-208333333333) 13 [0; 0; 3]; De 416666666667 13 [0; 3; 0]; De 854166666667 11 [4; 1]; De (-13125) 3 [5; 0]; De 416666666667 13 [2; 1; 0]; De 75 1 [3; 2]; De (-208333333333) 13 [0; 1; 2]; De (-208333333333) 13 [3; 0; 0]; De (-28875) 1 [7]; De 854166666667 11 [1; 4]])];
  [(0, [De (-25) 1 [3]; De 833333333333 13 [0; 1]; De (-833333333333) 13 [1; 0]]); (1, [De (-25) 2 [0; 2]; De (-25) 2 [1; 1]; De 25 2 [2; 0]; De 175 1 [4]]); (2, [De (-5) 1 [3; 0]; De 416666666667 12 [1; 2]; De 5 1 [0; 3]; De (-70) 0 [5]; De 583333333333 12 [2; 1]]); (3, [De (-75) 2 [2; 2]; De (-666666666667) 12 [1; 3]; De 210 0 [6]; De 833333333333 12 [4; 0]; De (-108333333333) 11 [3; 1]; De (-833333333333) 12 [0; 4]])];
  [(0, [De (-104166666667) 13 [1; 0; 0]; De 208333333333 13 [0; 1; 0]; De 125 2 [3; 0]; De (-125) 2 [0; 3]; De 1575 1 [5]; De (-1125) 3 [1; 2]; De (-1375) 3 [2; 1]; De (-104166666667) 13 [0; 0; 1]]); (1, [De 520833333333 13 [1; 1; 0]; De (-625) 4 [0; 2; 0]; De (-416666666667) 13 [1; 0; 1]; De 75 1 [2; 2]; De 6875 3 [1; 3]; De (-17325) 1 [6]; De (-104166666667) 13 [0; 1; 1]; De (-875) 2 [4; 0]; De 3125 5 [0; 0; 2]; De 9375 3 [3; 1]; De 3125 5 [2; 0; 0]; De 875 2 [0; 4]]); (2, [De (-26375) 3 [2; 3]; De (-104166666667) 13 [1; 2; 0]; De 145833333333 12 [2; 0; 1]; De (-38125) 3 [4; 1]; De 520833333333 13 [0; 2; 1]; De 625 4 [1; 1; 1]; De 208333333333 13 [1; 0; 2]; De (-625) 4 [0; 0; 3]; De 125 3 [0; 3; 0]; De (-35) 0 [0; 5]; De 35 0 [5; 0]; De (-197916666667) 12 [2; 1; 0]; De (-29875) 3 [3; 2]; De 10395 0 [7]; De (-625) 4 [3; 0; 0]; De (-104166666667) 13 [0; 1; 2]; De (-25625) 3 [1; 4]]); (3, [De 104166666667 12 [0; 0; 4]; De (-208333333333) 12 [0; 4; 0]; De 104166666667 12 [4; 0; 0]; De (-104166666667) 12 [1; 2; 1]; De (-520833333333) 13 [1; 3; 0]; De 73125 3 [2; 4]; De 7875 2 [3; 3]; De (-125) 3 [2; 0; 2]; De 15625 5 [2; 2; 0]; De (-105) 0 [6; 0]; De 416666666667 13 [0; 1; 3]; De (-166666666667) 12 [2; 1; 1]; De 104166666667 13 [1; 0; 3]; De 118125 3 [5; 1]; De 416666666667 12 [3; 1; 0]; De 105 0 [0; 6]; De (-3125) 5 [0; 2; 2]; De (-302083333333) 12 [3; 0; 1]; De 90625 3 [4; 2]; De (-416666666667) 13 [1; 1; 2]; De 74375 3 [1; 5]; De (-114583333333) 12 [0; 3; 1]])];
  [(0, [De 125 3 [0; 2]; De 208333333333 12 [1; 1]; De (-125) 3 [2; 0]; De (-175) 1 [4]]); (1, [De (-208333333333) 13 [1; 0; 0]; De 416666666667 13 [0; 1; 0]; De 625 3 [3; 0]; De (-625) 3 [0; 3]; De (-125) 2 [2; 1]; De (-75) 2 [1; 2]; De 1575 1 [5]; De (-208333333333) 13 [0; 0; 1]]); (2, [De (-416666666667) 13 [1; 1; 0]; De (-416666666667) 13 [0; 2; 0]; De 208333333333 13 [1; 0; 1]; De 2625 3 [2; 2]; De 1875 3 [1; 3]; De (-7875) 1 [6]; De 208333333333 13 [0; 1; 1]; De (-1875) 3 [4; 0]; De 208333333333 13 [0; 0; 2]; De 4375 3 [3; 1]; De 208333333333 13 [2; 0; 0]; De 1875 3 [0; 4]]); (3, [De (-5) 0 [2; 3]; De (-208333333333) 13 [1; 0; 2]; De (-208333333333) 13 [2; 0; 1]; De (-114583333333) 10 [4; 1]; De (-208333333333) 13 [0; 2; 1]; De (-208333333333) 13 [1; 1; 1]; De 416666666667 13 [1; 2; 0]; De (-208333333333) 13 [0; 0; 3]; De 416666666667 13 [0; 3; 0]; De (-4375) 3 [0; 5]; De 4375 3 [5; 0]; De 416666666667 13 [2; 1; 0]; De (-7) 0 [3; 2]; De 28875 1 [7]; De (-208333333333) 13 [3; 0; 0]; De (-208333333333) 13 [0; 1; 2]; De (-395833333333) 11 [1; 4]])]];
 [[(0, [De 104166666667 13 [1; 0; 0]; De (-208333333333) 13 [0; 1; 0]; De 1 0 [3; 0]; De (-1) 0 [0; 3]; De (-825) 3 [2; 1]; De (-675) 3 [1; 2]; De 945 1 [5]; De 104166666667 13 [0; 0; 1]]); (1, [De 729166666667 13 [1; 1; 0]; De 625 4 [0; 2; 0]; De (-416666666667) 13 [1; 0; 1]; De 45 1 [2; 2]; De 4375 3 [1; 3]; De (-10395) 1 [6]; De (-3125) 5 [0; 1; 1]; De (-7) 0 [4; 0]; De (-3125) 5 [0; 0; 2]; De 5625 3 [3; 1]; De (-3125) 5 [2; 0; 0]; De 7 0 [0; 4]]); (2, [De (-16075) 3 [2; 3]; De (-114583333333) 12 [1; 2; 0]; De 104166666667 12 [2; 0; 1]; De (-28) 0 [0; 5]; De 729166666667 13 [0; 2; 1]; De 625 4 [1; 1; 1]; De 625 4 [1; 0; 2]; De 625 4 [0; 0; 3]; De (-125) 3 [0; 3; 0]; De (-22875) 3 [4; 1]; De 28 0 [5; 0]; De (-177083333333) 12 [2; 1; 0]; De (-17925) 3 [3; 2]; De 520833333333 13 [0; 1; 2]; De 625 4 [3; 0; 0]; De 6237 0 [7]; De (-17125) 3 [1; 4]])];
  [(0, [De 125 3 [0; 2]; De 125 3 [1; 1]; De (-125) 3 [2; 0]; De (-105) 1 [4]]); (1, [De 625 3 [3; 0]; De (-5) 1 [1; 2]; De (-625) 3 [0; 3]; De 945 1 [5]; De (-75) 2 [2; 1]]); (2, [De 1625 3 [2; 2]; De 1375 3 [1; 3]; De (-4725) 1 [6]; De (-1875) 3 [4; 0]; De 2625 3 [3; 1]; De 1875 3 [0; 4]])];
  [(0, [De 125 4 [1; 1; 0]; De 375 4 [0; 2; 0]; De (-416666666667) 14 [1; 0; 1]; De (-4275) 3 [2; 2]; De (-35) 1 [1; 3]; De 10395 1 [6]; De (-833333333333) 14 [0; 1; 1]; De 4375 3 [4; 0]; De (-1875) 5 [0; 0; 2]; De (-6) 0 [3; 1]; De (-1875) 5 [2; 0; 0]; De (-4375) 3 [0; 4]]); (1, [De 31875 3 [2; 3]; De (-78125) 7 [0; 1; 0; 0]; De 3125 5 [1; 0; 2]; De 39375 3 [3; 2]; De (-15625) 5 [2; 0; 1]; De 55125 3 [4; 1]; De (-260416666667) 14 [0; 0; 0; 1]; De (-416666666667) 13 [1; 1; 1]; De 28875 3 [1; 4]; De 9375 5 [0; 0; 3]; De (-1875) 4 [0; 3; 0]; De 4375 5 [0; 1; 2]; De (-39375) 3 [5; 0]; De 16875 5 [2; 1; 0]; De (-75) 3 [1; 2; 0]; De (-135135) 1 [7]; De 78125 7 [0; 0; 1; 0]; De 9375 5 [3; 0; 0]; De 260416666667 14 [1; 0; 0; 0]; De (-125) 4 [0; 2; 1]; De 39375 3 [0; 5]]); (2, [De (-28125) 5 [0; 0; 4]; De 260416666667 14 [0; 0; 0; 2]; De 5625 4 [0; 4; 0]; De (-28125) 5 [4; 0; 0]; De 170833333333 12 [1; 2; 1]; De 260416666667 14 [0; 0; 1; 1]; De (-260416666667) 14 [2; 0; 0; 0]; De 2625 4 [1; 3; 0]; De (-142) 0 [2; 4]; De (-163875) 3 [3; 3]; De 1125 4 [2; 0; 2]; De (-208333333333) 14 [1; 1; 2]; De (-78125) 7 [0; 1; 1; 0]; De (-5625) 5 [2; 2; 0]; De 196875 3 [6; 0]; De (-14375) 5 [0; 1; 3]; De 78125 7 [1; 1; 0; 0]; De (-20325) 2 [4; 2]; De (-78125) 7 [0; 0; 2; 0]; De (-11875) 5 [1; 0; 3]; De (-78125) 7 [1; 0; 1; 0]; De 78125 7 [0; 2; 0; 0]; De (-196875) 3 [0; 6]; De 260416666667 14 [1; 0; 0; 1]; De (-286125) 3 [5; 1]; De (-5625) 5 [0; 2; 2]; De 81875 5 [3; 0; 1]; De 310416666667 12 [2; 1; 1]; De (-95625) 5 [3; 1; 0]; De (-137375) 3 [1; 5]; De 1375 4 [0; 3; 1]; De 260416666667 14 [0; 1; 0; 1]])];
  [(0, [De 104166666667 13 [1; 0; 0]; De (-208333333333) 13 [0; 1; 0]; De (-25) 2 [3; 0]; De 25 2 [0; 3]; De 675 3 [2; 1]; De 325 3 [1; 2]; De (-945) 1 [5]; De 104166666667 13 [0; 0; 1]]); (1, [De 729166666667 13 [1; 1; 0]; De 625 4 [0; 2; 0]; De (-416666666667) 13 [1; 0; 1]; De (-3) 0 [2; 2]; De (-1875) 3 [1; 3]; De 10395 1 [6]; De (-3125) 5 [0; 1; 1]; De 175 2 [4; 0]; De (-3125) 5 [0; 0; 2]; De (-5625) 3 [3; 1]; De (-3125) 5 [2; 0; 0]; De (-175) 2 [0; 4]]); (2, [De 9175 3 [2; 3]; De 625 4 [1; 0; 2]; De 104166666667 12 [2; 0; 1]; De 25875 3 [4; 1]; De 729166666667 13 [0; 2; 1]; De 625 4 [1; 1; 1]; De (-114583333333) 12 [1; 2; 0]; De 625 4 [0; 0; 3]; De (-125) 3 [0; 3; 0]; De 7 0 [0; 5]; De (-7) 0 [5; 0]; De (-177083333333) 12 [2; 1; 0]; De 14325 3 [3; 2]; De (-6237) 0 [7]; De 625 4 [3; 0; 0]; De 520833333333 13 [0; 1; 2]; De 6625 3 [1; 4]])]];
 [[(0, [De (-291666666667) 13 [1; 1; 0]; De (-25) 3 [0; 2; 0]; De 166666666667 13 [1; 0; 1]; De (-19) 1 [2; 2]; De (-183333333333) 11 [1; 3]; De 462 0 [6]; De 125 4 [0; 1; 1]; De 291666666667 11 [4; 0]; De 125 4 [0; 0; 2]; De (-266666666667) 11 [3; 1]; De 125 4 [2; 0; 0]; De (-291666666667) 11 [0; 4]]); (1, [De 15 0 [2; 3]; De (-625) 4 [1; 0; 2]; De (-125) 3 [2; 0; 1]; De 2625 2 [0; 5]; De (-75) 3 [0; 2; 1]; De (-625) 4 [1; 1; 1]; De 1125 4 [1; 2; 0]; De (-625) 4 [0; 0; 3]; De 125 3 [0; 3; 0]; De 245 1 [4; 1]; De (-2625) 2 [5; 0]; De 2 1 [2; 1; 0]; De 175 1 [3; 2]; De (-5) 2 [0; 1; 2]; De (-625) 4 [3; 0; 0]; De (-6006) 0 [7]; De 1575 2 [1; 4]])];
  [(0, [De (-25) 2 [3; 0]; De 2 1 [1; 2]; De 25 2 [0; 3]; De (-42) 0 [5]; De 3 1 [2; 1]]); (1, [De (-15) 1 [2; 2]; De (-125) 2 [1; 3]; De 462 0 [6]; De 175 2 [4; 0]; De (-25) 1 [3; 1]; De (-175) 2 [0; 4]])];
  [(0, [De (-13) 0 [2; 3]; De 3125 6 [0; 1; 0; 0]; De (-166666666667) 13 [1; 0; 2]; De 166666666667 13 [2; 0; 1]; De (-1575) 2 [0; 5]; De 104166666667 14 [0; 0; 0; 1]; De 6006 0 [7]; De 375 4 [1; 2; 0]; De (-416666666667) 13 [3; 0; 0]; De 833333333333 13 [0; 3; 0]; De (-256666666667) 10 [4; 1]; De 1575 2 [5; 0]; De (-416666666667) 14 [2; 1; 0]; De (-17) 0 [3; 2]; De (-208333333333) 13 [0; 1; 2]; De (-3125) 6 [0; 0; 1; 0]; De (-416666666667) 13 [0; 0; 3]; De (-104166666667) 14 [1; 0; 0; 0]; De (-125) 4 [0; 2; 1]; De (-116666666667) 10 [1; 4]]); (1, [De 291666666667 12 [0; 0; 4]; De (-3125) 6 [0; 0; 0; 2]; De (-583333333333) 12 [0; 4; 0]; De 291666666667 12 [4; 0; 0]; De (-875) 4 [1; 2; 1]; De (-3125) 6 [0; 0; 1; 1]; De 3125 6 [2; 0; 0; 0]; De (-270833333333) 12 [1; 3; 0]; De 126 0 [2; 4]; De 150 0 [3; 3]; De 375 4 [1; 1; 2]; De 104166666667 13 [0; 1; 1; 0]; De (-1) 1 [2; 2; 0]; De (-17325) 2 [6; 0]; De 145833333333 12 [0; 1; 3]; De (-125) 4 [1; 1; 0; 0]; De (-2) 1 [2; 1; 1]; De 9375 6 [0; 0; 2; 0]; De 125 3 [1; 0; 3]; De 145833333333 13 [1; 0; 1; 0]; De (-9375) 6 [0; 2; 0; 0]; De 17325 2 [0; 6]; De (-520833333333) 14 [1; 0; 0; 1]; De 294 0 [5; 1]; De 1 1 [0; 2; 2]; De (-666666666667) 12 [3; 0; 1]; De 196 0 [4; 2]; De 6875 4 [3; 1; 0]; De 12075 2 [1; 5]; De (-208333333333) 13 [0; 3; 1]; De (-416666666667) 14 [0; 1; 0; 1]])];
  [(0, [De (-291666666667) 13 [1; 1; 0]; De (-25) 3 [0; 2; 0]; De 166666666667 13 [1; 0; 1]; De 11 1 [2; 2]; De 666666666667 12 [1; 3]; De (-462) 0 [6]; De 125 4 [0; 1; 1]; De (-583333333333) 12 [4; 0]; De 125 4 [0; 0; 2]; De 233333333333 11 [3; 1]; De 125 4 [2; 0; 0]; De 583333333333 12 [0; 4]]); (1, [De (-75) 1 [2; 3]; De (-625) 4 [1; 0; 2]; De (-125) 3 [2; 0; 1]; De (-245) 1 [4; 1]; De (-75) 3 [0; 2; 1]; De (-625) 4 [1; 1; 1]; De 1125 4 [1; 2; 0]; De (-625) 4 [0; 0; 3]; De 125 3 [0; 3; 0]; De (-525) 2 [0; 5]; De 525 2 [5; 0]; De 2 1 [2; 1; 0]; De (-125) 1 [3; 2]; De 6006 0 [7]; De (-625) 4 [3; 0; 0]; De (-5) 2 [0; 1; 2]; De (-525) 2 [1; 4]])]];
 [[(0, [De (-517857142857) 11 [2; 3]; De 208333333333 13 [1; 0; 2]; De 416666666667 13 [2; 0; 1]; De (-9) 0 [0; 5]; De 25 3 [0; 2; 1]; De 208333333333 13 [1; 1; 1]; De (-375) 4 [1; 2; 0]; De 208333333333 13 [0; 0; 3]; De (-416666666667) 13 [0; 3; 0]; De (-916666666667) 11 [4; 1]; De 9 0 [5; 0]; De (-666666666667) 13 [2; 1; 0]; De (-607142857143) 11 [3; 2]; De 166666666667 13 [0; 1; 2]; De 208333333333 13 [3; 0; 0]; De 2145 0 [7]; De (-541666666667) 11 [1; 4]])];
  [(0, [De 5 1 [2; 2]; De 416666666667 12 [1; 3]; De (-165) 0 [6]; De (-583333333333) 12 [4; 0]; De 833333333333 12 [3; 1]; De 583333333333 12 [0; 4]])];
  [(0, [De (-104166666667) 12 [0; 0; 4]; De 104166666667 14 [0; 0; 0; 2]; De 208333333333 12 [0; 4; 0]; De (-104166666667) 12 [4; 0; 0]; De 535714285714 14 [1; 2; 1]; De 104166666667 14 [0; 0; 1; 1]; De (-104166666667) 14 [2; 0; 0; 0]; De 10119047619 11 [1; 3; 0]; De (-425) 1 [2; 4]; De (-508928571429) 10 [3; 3]; De (-892857142857) 14 [2; 0; 2]; De (-172619047619) 13 [1; 1; 2]; De (-347222222222) 14 [0; 1; 1; 0]; De 482142857143 13 [2; 2; 0]; De 5775 2 [6; 0]; De (-535714285714) 13 [0; 1; 3]; De 416666666667 14 [1; 1; 0; 0]; De (-6875) 2 [4; 2]; De (-3125) 6 [0; 0; 2; 0]; De (-47619047619) 12 [1; 0; 3]; De (-486111111111) 14 [1; 0; 1; 0]; De 3125 6 [0; 2; 0; 0]; De (-5775) 2 [0; 6]; De 173611111111 14 [1; 0; 0; 1]; De (-10875) 2 [5; 1]; De (-392857142857) 13 [0; 2; 2]; De 119047619048 12 [3; 0; 1]; De 327380952381 13 [2; 1; 1]; De (-952380952381) 13 [3; 1; 0]; De (-405) 1 [1; 5]; De (-238095238095) 13 [0; 3; 1]; De 138888888889 14 [0; 1; 0; 1]])];
  [(0, [De 232142857143 11 [2; 3]; De 208333333333 13 [1; 0; 2]; De 416666666667 13 [2; 0; 1]; De 833333333333 11 [4; 1]; De 25 3 [0; 2; 1]; De 208333333333 13 [1; 1; 1]; De (-375) 4 [1; 2; 0]; De 208333333333 13 [0; 0; 3]; De (-416666666667) 13 [0; 3; 0]; De 15 1 [0; 5]; De (-15) 1 [5; 0]; De (-666666666667) 13 [2; 1; 0]; De 392857142857 11 [3; 2]; De (-2145) 0 [7]; De 208333333333 13 [3; 0; 0]; De 166666666667 13 [0; 1; 2]; De 158333333333 11 [1; 4]])]]].
(** matscs_formulas.cpp: tDelta(4, 0..9) *)
Definition wdelta_row4 : list (list wentry) := [
 [[];
  [];
  [];
  []];
 [[];
  [];
  [];
  []];
 [[];
  [];
  [];
  []];
 [[];
  [];
  [];
  []];
 [[];
  [];
  [];
  []];
 [[];
  [];
  [];
  []];
 [[];
  [];
  [];
  []];
 [[(0, [De (-3125) 5 [1; 0; 0]; De 625 4 [0; 1; 0]; De (-75) 2 [3; 0]; De 75 2 [0; 3]; De 275 3 [2; 1]; De 225 3 [1; 2]; De (-315) 1 [5]; De (-3125) 5 [0; 0; 1]]); (1, [De 520833333333 13 [0; 1; 1]; De (-1875) 4 [0; 2; 0]; De 416666666667 13 [1; 0; 1]; De (-15) 1 [2; 2]; De (-1875) 3 [1; 3]; De 3465 1 [6]; De (-9375) 5 [1; 1; 0]; De 525 2 [4; 0]; De 9375 5 [0; 0; 2]; De (-1875) 3 [3; 1]; De 9375 5 [2; 0; 0]; De (-525) 2 [0; 4]]); (2, [De 5775 3 [2; 3]; De (-104166666667) 12 [1; 0; 2]; De (-625) 4 [2; 0; 1]; De 21 0 [0; 5]; De (-9375) 5 [0; 2; 1]; De (-625) 4 [1; 1; 1]; De 21875 5 [1; 2; 0]; De (-1875) 4 [0; 0; 3]; De 375 3 [0; 3; 0]; De 7625 3 [4; 1]; De (-21) 0 [5; 0]; De 15625 5 [2; 1; 0]; De 5975 3 [3; 2]; De (-114583333333) 12 [0; 1; 2]; De (-1875) 4 [3; 0; 0]; De (-2079) 0 [7]; De 8625 3 [1; 4]])];
  [(0, [De (-125) 3 [0; 2]; De (-416666666667) 13 [1; 1]; De 125 3 [2; 0]; De 35 1 [4]]); (1, [De (-208333333333) 13 [1; 0; 0]; De 416666666667 13 [0; 1; 0]; De (-625) 3 [3; 0]; De 625 3 [0; 3]; De 25 2 [2; 1]; De 25 2 [1; 2]; De (-315) 1 [5]; De (-208333333333) 13 [0; 0; 1]]); (2, [De 208333333333 13 [0; 1; 1]; De (-416666666667) 13 [0; 2; 0]; De 208333333333 13 [1; 0; 1]; De (-625) 3 [2; 2]; De (-875) 3 [1; 3]; De 1575 1 [6]; De (-416666666667) 13 [1; 1; 0]; De 1875 3 [4; 0]; De 208333333333 13 [0; 0; 2]; De (-875) 3 [3; 1]; De 208333333333 13 [2; 0; 0]; De (-1875) 3 [0; 4]])];
  [(0, [De 1 1 [1; 1; 0]; De 1125 4 [0; 2; 0]; De (-541666666667) 13 [1; 0; 1]; De 1425 3 [2; 2]; De 2 0 [1; 3]; De (-3465) 1 [6]; De (-458333333333) 13 [0; 1; 1]; De (-4375) 3 [4; 0]; De (-5625) 5 [0; 0; 2]; De 2 0 [3; 1]; De (-5625) 5 [2; 0; 0]; De 4375 3 [0; 4]]); (1, [De (-13125) 3 [2; 3]; De (-78125) 7 [0; 1; 0; 0]; De 21875 5 [1; 0; 2]; De (-13125) 3 [3; 2]; De 21875 5 [2; 0; 1]; De (-18375) 3 [4; 1]; De (-260416666667) 14 [0; 0; 0; 1]; De 145833333333 12 [1; 1; 1]; De (-18375) 3 [1; 4]; De 28125 5 [0; 0; 3]; De (-5625) 4 [0; 3; 0]; De 19375 5 [0; 1; 2]; De 39375 3 [5; 0]; De (-43125) 5 [2; 1; 0]; De (-4125) 4 [1; 2; 0]; De 45045 1 [7]; De 78125 7 [0; 0; 1; 0]; De 28125 5 [3; 0; 0]; De 260416666667 14 [1; 0; 0; 0]; De 2125 4 [0; 2; 1]; De (-39375) 3 [0; 5]]); (2, [De (-84375) 5 [0; 0; 4]; De 260416666667 14 [0; 0; 0; 2]; De 16875 4 [0; 4; 0]; De (-84375) 5 [4; 0; 0]; De (-404166666667) 12 [1; 2; 1]; De 260416666667 14 [0; 0; 1; 1]; De (-260416666667) 14 [2; 0; 0; 0]; De 11625 4 [1; 3; 0]; De 6775 2 [2; 4]; De 59625 3 [3; 3]; De (-6) 1 [2; 0; 2]; De (-402083333333) 12 [1; 1; 2]; De (-78125) 7 [0; 1; 1; 0]; De 114375 5 [2; 2; 0]; De (-196875) 3 [6; 0]; De (-55625) 5 [0; 1; 3]; De 78125 7 [1; 1; 0; 0]; De 6775 2 [4; 2]; De (-78125) 7 [0; 0; 2; 0]; De (-60625) 5 [1; 0; 3]; De (-78125) 7 [1; 0; 1; 0]; De 78125 7 [0; 2; 0; 0]; De 196875 3 [0; 6]; De 260416666667 14 [1; 0; 0; 1]; De 95375 3 [5; 1]; De (-54375) 5 [0; 2; 2]; De (-60625) 5 [3; 0; 1]; De (-402083333333) 12 [2; 1; 1]; De 125625 5 [3; 1; 0]; De 95375 3 [1; 5]; De (-65) 2 [0; 3; 1]; De 260416666667 14 [0; 1; 0; 1]])];
  [(0, [De 104166666667 13 [1; 0; 0]; De (-208333333333) 13 [0; 1; 0]; De 5 1 [3; 0]; De (-5) 1 [0; 3]; De (-225) 3 [2; 1]; De (-275) 3 [1; 2]; De 315 1 [5]; De 104166666667 13 [0; 0; 1]]); (1, [De 729166666667 13 [1; 1; 0]; De 625 4 [0; 2; 0]; De (-416666666667) 13 [1; 0; 1]; De 15 1 [2; 2]; De 1875 3 [1; 3]; De (-3465) 1 [6]; De (-3125) 5 [0; 1; 1]; De (-35) 1 [4; 0]; De (-3125) 5 [0; 0; 2]; De 1875 3 [3; 1]; De (-3125) 5 [2; 0; 0]; De 35 1 [0; 4]]); (2, [De (-5975) 3 [2; 3]; De 625 4 [1; 0; 2]; De 104166666667 12 [2; 0; 1]; De (-14) 0 [0; 5]; De 729166666667 13 [0; 2; 1]; De 625 4 [1; 1; 1]; De (-114583333333) 12 [1; 2; 0]; De 625 4 [0; 0; 3]; De (-125) 3 [0; 3; 0]; De (-8625) 3 [4; 1]; De 14 0 [5; 0]; De (-177083333333) 12 [2; 1; 0]; De (-5775) 3 [3; 2]; De 520833333333 13 [0; 1; 2]; De 625 4 [3; 0; 0]; De 2079 0 [7]; De (-7625) 3 [1; 4]])]];
 [[(0, [De (-458333333333) 13 [0; 1; 1]; De 1125 4 [0; 2; 0]; De (-541666666667) 13 [1; 0; 1]; De 1425 3 [2; 2]; De 2 0 [1; 3]; De (-3465) 1 [6]; De 1 1 [1; 1; 0]; De (-4375) 3 [4; 0]; De (-5625) 5 [0; 0; 2]; De 2 0 [3; 1]; De (-5625) 5 [2; 0; 0]; De 4375 3 [0; 4]]); (1, [De (-13125) 3 [2; 3]; De (-78125) 7 [0; 1; 0; 0]; De 21875 5 [1; 0; 2]; De 21875 5 [2; 0; 1]; De (-18375) 3 [4; 1]; De (-260416666667) 14 [0; 0; 0; 1]; De (-18375) 3 [1; 4]; De 145833333333 12 [1; 1; 1]; De (-4125) 4 [1; 2; 0]; De 28125 5 [0; 0; 3]; De (-5625) 4 [0; 3; 0]; De 45045 1 [7]; De 39375 3 [5; 0]; De (-43125) 5 [2; 1; 0]; De (-13125) 3 [3; 2]; De 19375 5 [0; 1; 2]; De 78125 7 [0; 0; 1; 0]; De 28125 5 [3; 0; 0]; De 260416666667 14 [1; 0; 0; 0]; De 2125 4 [0; 2; 1]; De (-39375) 3 [0; 5]])];
  [(0, [De 104166666667 13 [1; 0; 0]; De (-208333333333) 13 [0; 1; 0]; De 5 1 [3; 0]; De (-5) 1 [0; 3]; De (-225) 3 [2; 1]; De (-275) 3 [1; 2]; De 315 1 [5]; De 104166666667 13 [0; 0; 1]]); (1, [De (-3125) 5 [0; 1; 1]; De 625 4 [0; 2; 0]; De (-416666666667) 13 [1; 0; 1]; De 15 1 [2; 2]; De 1875 3 [1; 3]; De (-3465) 1 [6]; De 729166666667 13 [1; 1; 0]; De (-35) 1 [4; 0]; De (-3125) 5 [0; 0; 2]; De 1875 3 [3; 1]; De (-3125) 5 [2; 0; 0]; De 35 1 [0; 4]])];
  [(0, [De 135 1 [2; 3]; De (-625) 5 [0; 1; 0; 0]; De (-175) 3 [1; 0; 2]; De 1275 2 [3; 2]; De (-2625) 4 [2; 0; 1]; De 1925 2 [4; 1]; De (-208333333333) 14 [0; 0; 0; 1]; De (-145833333333) 12 [1; 1; 1]; De 175 1 [1; 4]; De (-125) 3 [0; 0; 3]; De 25 2 [0; 3; 0]; De (-125) 3 [0; 1; 2]; De (-315) 1 [5; 0]; De 425 3 [2; 1; 0]; De 3 1 [1; 2; 0]; De (-45045) 1 [7]; De 625 5 [0; 0; 1; 0]; De (-125) 3 [3; 0; 0]; De 208333333333 14 [1; 0; 0; 0]; De (-1625) 4 [0; 2; 1]; De 315 1 [0; 5]]); (1, [De 875 3 [0; 0; 4]; De 625 5 [0; 0; 0; 2]; De (-175) 2 [0; 4; 0]; De 875 3 [4; 0; 0]; De 8625 4 [1; 2; 1]; De 104166666667 14 [0; 0; 1; 1]; De (-625) 5 [2; 0; 0; 0]; De (-175) 2 [1; 3; 0]; De (-147) 0 [2; 4]; De (-13125) 2 [3; 3]; De 13125 4 [2; 0; 2]; De 7375 4 [1; 1; 2]; De (-2175) 3 [2; 2; 0]; De 3465 1 [6; 0]; De 75 2 [0; 1; 3]; De (-625) 5 [1; 1; 0; 0]; De (-147) 0 [4; 2]; De (-1875) 5 [0; 0; 2; 0]; De 1 0 [1; 0; 3]; De 125 4 [1; 0; 1; 0]; De 1875 5 [0; 2; 0; 0]; De (-3465) 1 [0; 6]; De (-520833333333) 14 [1; 0; 0; 1]; De (-2205) 1 [5; 1]; De 8625 4 [0; 2; 2]; De 175 2 [3; 0; 1]; De 9625 4 [2; 1; 1]; De (-29375) 4 [3; 1; 0]; De (-189) 0 [1; 5]; De 11875 4 [0; 3; 1]; De (-208333333333) 14 [0; 1; 0; 1]])];
  [(0, [De 166666666667 13 [0; 1; 1]; De (-125) 4 [0; 2; 0]; De 291666666667 13 [1; 0; 1]; De (-1575) 3 [2; 2]; De (-175) 2 [1; 3]; De 3465 1 [6]; De (-458333333333) 13 [1; 1; 0]; De 2625 3 [4; 0]; De 625 5 [0; 0; 2]; De (-175) 2 [3; 1]; De 625 5 [2; 0; 0]; De (-2625) 3 [0; 4]]); (1, [De 13125 3 [2; 3]; De (-78125) 7 [0; 1; 0; 0]; De (-9375) 5 [1; 0; 2]; De (-21875) 5 [2; 0; 1]; De 18375 3 [4; 1]; De (-260416666667) 14 [0; 0; 0; 1]; De 14875 3 [1; 4]; De (-104166666667) 12 [1; 1; 1]; De 15 2 [1; 2; 0]; De (-3125) 5 [0; 0; 3]; De 625 4 [0; 3; 0]; De (-45045) 1 [7]; De (-23625) 3 [5; 0]; De 31875 5 [2; 1; 0]; De 13125 3 [3; 2]; De (-5625) 5 [0; 1; 2]; De 78125 7 [0; 0; 1; 0]; De (-3125) 5 [3; 0; 0]; De 260416666667 14 [1; 0; 0; 0]; De (-1) 1 [0; 2; 1]; De 23625 3 [0; 5]])]];
 [[(0, [De 771428571429 11 [2; 3]; De 3125 6 [0; 1; 0; 0]; De (-1) 1 [1; 0; 2]; De (-15) 2 [2; 0; 1]; De 11 0 [4; 1]; De 104166666667 14 [0; 0; 0; 1]; De 10 0 [1; 4]; De (-833333333333) 13 [1; 1; 1]; De 1875 4 [1; 2; 0]; De (-125) 3 [0; 0; 3]; De 25 2 [0; 3; 0]; De (-2574) 0 [7]; De (-2025) 2 [5; 0]; De 2625 4 [2; 1; 0]; De 728571428571 11 [3; 2]; De (-875) 4 [0; 1; 2]; De (-3125) 6 [0; 0; 1; 0]; De (-125) 3 [3; 0; 0]; De (-104166666667) 14 [1; 0; 0; 0]; De (-1125) 4 [0; 2; 1]; De 2025 2 [0; 5]])];
  [(0, [De 125 4 [0; 1; 1]; De (-25) 3 [0; 2; 0]; De 166666666667 13 [1; 0; 1]; De (-9) 1 [2; 2]; De (-1) 0 [1; 3]; De 198 0 [6]; De (-291666666667) 13 [1; 1; 0]; De 175 2 [4; 0]; De 125 4 [0; 0; 2]; De (-1) 0 [3; 1]; De 125 4 [2; 0; 0]; De (-175) 2 [0; 4]])];
  [(0, [De (-3125) 4 [0; 0; 4]; De (-3125) 6 [0; 0; 0; 2]; De 625 3 [0; 4; 0]; De (-3125) 4 [4; 0; 0]; De (-446428571429) 12 [1; 2; 1]; De (-208333333333) 14 [0; 0; 1; 1]; De 3125 6 [2; 0; 0; 0]; De 678571428571 12 [1; 3; 0]; De 825 1 [2; 4]; De 760714285714 10 [3; 3]; De (-664285714286) 12 [2; 0; 2]; De (-339285714286) 12 [1; 1; 2]; De 625 5 [0; 1; 1; 0]; De 104464285714 11 [2; 2; 0]; De (-17325) 2 [6; 0]; De (-285714285714) 12 [0; 1; 3]; De (-625) 5 [1; 1; 0; 0]; De 825 1 [4; 2]; De 9375 6 [0; 0; 2; 0]; De (-392857142857) 12 [1; 0; 3]; De 625 5 [1; 0; 1; 0]; De (-9375) 6 [0; 2; 0; 0]; De 17325 2 [0; 6]; De (-208333333333) 14 [1; 0; 0; 1]; De 1305 1 [5; 1]; De (-380357142857) 12 [0; 2; 2]; De (-114285714286) 11 [3; 0; 1]; De (-564285714286) 12 [2; 1; 1]; De 171428571429 11 [3; 1; 0]; De 99 0 [1; 5]; De (-571428571429) 12 [0; 3; 1]; De (-208333333333) 14 [0; 1; 0; 1]])];
  [(0, [De (-728571428571) 11 [2; 3]; De 3125 6 [0; 1; 0; 0]; De 25 3 [1; 0; 2]; De 1 1 [2; 0; 1]; De (-10) 0 [4; 1]; De 375 4 [0; 2; 1]; De 416666666667 13 [1; 1; 1]; De (-375) 4 [1; 2; 0]; De (-1125) 2 [0; 5]; De (-75) 1 [1; 4]; De 2574 0 [7]; De 1125 2 [5; 0]; De (-1375) 4 [2; 1; 0]; De (-771428571429) 11 [3; 2]; De 125 4 [0; 1; 2]; De (-3125) 6 [0; 0; 1; 0]; De (-104166666667) 14 [1; 0; 0; 0]; De 104166666667 14 [0; 0; 0; 1]])]]].
(** matscs_formulas.cpp: tH[0] *)
Definition wh_row0 : list wentry := [[(0, [De 1 0 []])];
  [];
  [];
  [(0, [De 1 0 []])]].
(** matscs_formulas.cpp: tH[1] *)
Definition wh_row1 : list wentry := [[];
  [(1, [De 1 0 []])];
  [(3, [De 5 1 [2]]); (4, [De (-416666666667) 13 [0; 1]; De 416666666667 13 [1; 0]]); (5, [De 5 1 [4]]); (6, [De (-833333333333) 14 [1; 2]; De 833333333333 14 [2; 1]]); (7, [De 5 1 [6]]); (8, [De (-357142857143) 14 [2; 3]; De 357142857143 14 [3; 2]]); (9, [De 5 1 [8]]); (10, [De (-198412698413) 14 [3; 4]; De 198412698413 14 [4; 3]])];
  []].
(** matscs_formulas.cpp: tH[2] *)
Definition wh_row2 : list wentry := [[(3, [De (-5) 1 [1]]); (5, [De (-5) 1 [3]; De (-416666666667) 13 [0; 1]; De 416666666667 13 [1; 0]]); (7, [De (-833333333333) 14 [1; 2]; De (-5) 1 [5]; De 833333333333 14 [2; 1]]); (9, [De (-357142857143) 14 [2; 3]; De (-5) 1 [7]; De 357142857143 14 [3; 2]])];
  [];
  [(3, [De (-15) 1 [2]]); (4, [De (-125) 3 [0; 1]; De 125 3 [1; 0]]); (5, [De 125 3 [0; 2]; De (-416666666667) 13 [1; 1]; De (-125) 3 [2; 0]; De (-5) 0 [4]]); (6, [De 125 3 [3; 0]; De (-125) 3 [0; 3]; De (-104166666667) 13 [1; 0; 0]; De 208333333333 13 [0; 1; 0]; De (-104166666667) 13 [0; 0; 1]]); (7, [De 208333333333 14 [1; 1; 0]; De (-416666666667) 14 [0; 2; 0]; De (-416666666667) 14 [1; 0; 1]; De (-25) 3 [2; 2]; De (-105) 1 [6]; De 208333333333 14 [0; 1; 1]; De (-125) 3 [4; 0]; De 208333333333 14 [0; 0; 2]; De 208333333333 14 [2; 0; 0]; De 125 3 [0; 4]]); (8, [De 208333333333 14 [1; 2; 0]; De (-125) 3 [0; 5]; De 208333333333 14 [0; 2; 1]; De 125 3 [5; 0]; De (-208333333333) 14 [2; 1; 0]; De (-208333333333) 14 [0; 1; 2]]); (9, [De 595238095238 15 [3; 1; 0]; De (-595238095238) 15 [2; 0; 2]; De 297619047619 15 [1; 0; 3]; De (-178571428571) 13 [3; 3]; De (-18) 0 [8]; De 119047619048 14 [1; 2; 1]; De 595238095238 15 [0; 1; 3]; De (-595238095238) 15 [1; 1; 2]; De 297619047619 15 [2; 2; 0]; De 125 3 [0; 6]; De (-892857142857) 15 [1; 3; 0]; De (-125) 3 [6; 0]; De (-595238095238) 15 [2; 1; 1]; De (-892857142857) 15 [0; 3; 1]; De 297619047619 15 [0; 2; 2]; De 297619047619 15 [3; 0; 1]]); (10, [De 125 3 [7; 0]; De (-125) 3 [0; 7]; De 892857142857 15 [0; 3; 2]; De (-892857142857) 15 [0; 2; 3]; De 892857142857 15 [2; 3; 0]; De (-892857142857) 15 [3; 2; 0]])];
  [(3, [De 5 1 [1]]); (5, [De (-416666666667) 13 [0; 1]; De 5 1 [3]; De 416666666667 13 [1; 0]]); (7, [De (-833333333333) 14 [1; 2]; De 5 1 [5]; De 833333333333 14 [2; 1]]); (9, [De (-357142857143) 14 [2; 3]; De 5 1 [7]; De 357142857143 14 [3; 2]])]].
(** matscs_formulas.cpp: tH[3] *)
Definition wh_row3 : list wentry := [[(5, [De (-166666666667) 12 [0; 1]; De 25 1 [3]; De 166666666667 12 [1; 0]]); (6, [De 125 3 [0; 2]; De (-416666666667) 13 [1; 1]; De (-125) 3 [2; 0]]); (7, [De (-104166666667) 13 [1; 0; 0]; De 208333333333 13 [0; 1; 0]; De 125 3 [3; 0]; De (-125) 3 [0; 3]; De 7 0 [5]; De (-833333333333) 14 [1; 2]; De 833333333333 14 [2; 1]; De (-104166666667) 13 [0; 0; 1]]); (8, [De 208333333333 14 [0; 1; 1]; De (-416666666667) 14 [0; 2; 0]; De (-416666666667) 14 [1; 0; 1]; De (-25) 3 [2; 2]; De 208333333333 14 [1; 1; 0]; De (-125) 3 [4; 0]; De 208333333333 14 [0; 0; 2]; De 208333333333 14 [2; 0; 0]; De 125 3 [0; 4]]); (9, [De (-357142857143) 14 [2; 3]; De 208333333333 14 [1; 2; 0]; De (-125) 3 [0; 5]; De 208333333333 14 [0; 2; 1]; De 135 1 [7]; De 125 3 [5; 0]; De (-208333333333) 14 [2; 1; 0]; De 357142857143 14 [3; 2]; De (-208333333333) 14 [0; 1; 2]]); (10, [De 595238095238 15 [3; 1; 0]; De (-892857142857) 15 [0; 3; 1]; De 297619047619 15 [1; 0; 3]; De (-178571428571) 13 [3; 3]; De (-595238095238) 15 [2; 0; 2]; De 119047619048 14 [1; 2; 1]; De (-595238095238) 15 [1; 1; 2]; De 297619047619 15 [2; 2; 0]; De 125 3 [0; 6]; De (-892857142857) 15 [1; 3; 0]; De (-125) 3 [6; 0]; De (-595238095238) 15 [2; 1; 1]; De 595238095238 15 [0; 1; 3]; De 297619047619 15 [0; 2; 2]; De 297619047619 15 [3; 0; 1]])];
  [(5, [De (-5) 1 [2]]); (6, [De (-416666666667) 13 [0; 1]; De 416666666667 13 [1; 0]]); (7, [De (-5) 1 [4]]); (8, [De (-833333333333) 14 [1; 2]; De 833333333333 14 [2; 1]]); (9, [De (-5) 1 [6]]); (10, [De (-357142857143) 14 [2; 3]; De 357142857143 14 [3; 2]])];
  [(5, [De (-375) 3 [0; 2]; De (-291666666667) 12 [1; 1]; De 375 3 [2; 0]; De 175 1 [4]]); (6, [De (-3125) 5 [1; 0; 0]; De 625 4 [0; 1; 0]; De (-625) 3 [3; 0]; De 625 3 [0; 3]; De 125 3 [1; 2]; De (-125) 3 [2; 1]; De (-3125) 5 [0; 0; 1]]); (7, [De 229166666667 13 [1; 1; 0]; De (-666666666667) 13 [0; 2; 0]; De (-25) 3 [1; 0; 1]; De (-15) 2 [2; 2]; De (-25) 2 [1; 3]; De 945 1 [6]; De 208333333333 14 [0; 1; 1]; De 125 2 [4; 0]; De 333333333333 13 [0; 0; 2]; De (-25) 2 [3; 1]; De 333333333333 13 [2; 0; 0]; De (-125) 2 [0; 4]]); (8, [De (-46875) 7 [0; 1; 0; 0]; De 145833333333 13 [1; 0; 2]; De (-145833333333) 13 [2; 0; 1]; De (-125) 3 [4; 1]; De (-15625) 7 [0; 0; 0; 1]; De 125 3 [1; 4]; De (-3125) 5 [0; 0; 3]; De 625 4 [0; 3; 0]; De 175 2 [0; 5]; De (-175) 2 [5; 0]; De 833333333333 14 [2; 1; 0]; De (-625) 5 [1; 2; 0]; De (-833333333333) 14 [0; 1; 2]; De 46875 7 [0; 0; 1; 0]; De (-3125) 5 [3; 0; 0]; De 15625 7 [1; 0; 0; 0]; De 625 5 [0; 2; 1]]); (9, [De 3125 5 [0; 0; 4]; De 520833333333 15 [0; 0; 0; 2]; De (-625) 4 [0; 4; 0]; De 3125 5 [4; 0; 0]; De 535714285714 14 [1; 2; 1]; De 520833333333 15 [0; 0; 1; 1]; De (-520833333333) 15 [2; 0; 0; 0]; De (-892857142857) 15 [1; 3; 0]; De (-125) 3 [2; 4]; De (-267857142857) 12 [3; 3]; De (-595238095238) 15 [2; 0; 2]; De (-868055555556) 15 [0; 1; 1; 0]; De 654761904762 14 [2; 2; 0]; De 2625 3 [6; 0]; De 110119047619 13 [0; 1; 3]; De (-520833333333) 15 [1; 1; 0; 0]; De (-267857142857) 14 [2; 1; 1]; De (-15625) 7 [0; 0; 2; 0]; De (-10119047619) 12 [1; 0; 3]; De 190972222222 14 [1; 0; 1; 0]; De 15625 7 [0; 2; 0; 0]; De 110119047619 13 [3; 1; 0]; De (-2625) 3 [0; 6]; De (-868055555556) 15 [1; 0; 0; 1]; De (-25) 2 [5; 1]; De (-595238095238) 14 [0; 2; 2]; De (-10119047619) 12 [3; 0; 1]; De 297 0 [8]; De (-125) 3 [4; 2]; De (-267857142857) 14 [1; 1; 2]; De (-25) 2 [1; 5]; De (-892857142857) 15 [0; 3; 1]; De (-173611111111) 15 [0; 1; 0; 1]]); (10, [De 178571428571 14 [0; 2; 3]; De (-372023809524) 15 [1; 0; 2; 0]; De (-223214285714) 15 [2; 0; 0; 1]; De (-14880952381) 13 [3; 1; 1]; De 357142857143 14 [0; 3; 2]; De 372023809524 15 [2; 1; 0; 0]; De 223214285714 15 [1; 0; 1; 1]; De (-104166666667) 13 [4; 0; 1]; De (-372023809524) 15 [0; 0; 1; 2]; De 744047619048 16 [2; 0; 1; 0]; De 178571428571 14 [2; 0; 3]; De 744047619048 16 [3; 0; 0; 0]; De 3375 3 [0; 7]; De 625 4 [0; 5; 0]; De (-744047619048) 16 [0; 0; 0; 3]; De (-3125) 5 [0; 0; 5]; De (-357142857143) 14 [2; 3; 0]; De (-223214285714) 15 [0; 3; 0; 0]; De (-178571428571) 14 [3; 2; 0]; De (-3375) 3 [7; 0]; De (-3125) 5 [5; 0; 0]; De (-818452380952) 15 [0; 2; 1; 0]; De 327380952381 14 [2; 2; 1]; De 125 3 [3; 4]; De (-223214285714) 15 [1; 2; 0; 0]; De 223214285714 15 [0; 0; 2; 1]; De 104166666667 13 [4; 1; 0]; De (-327380952381) 14 [1; 2; 2]; De 818452380952 15 [0; 1; 2; 0]; De 223214285714 15 [0; 0; 3; 0]; De (-104166666667) 13 [0; 1; 4]; De (-125) 3 [6; 1]; De 104166666667 13 [1; 0; 4]; De 372023809524 15 [0; 2; 0; 1]; De 223214285714 15 [1; 0; 0; 2]; De (-125) 3 [4; 3]; De (-178571428571) 14 [3; 0; 2]; De 14880952381 13 [1; 1; 3]; De 125 3 [1; 6]; De 744047619048 16 [1; 1; 1; 0]; De (-744047619048) 16 [0; 1; 0; 2]; De (-223214285714) 15 [1; 1; 0; 1]; De (-744047619048) 16 [0; 1; 1; 1]])];
  [(5, [De (-25) 1 [3]; De 833333333333 13 [0; 1]; De (-833333333333) 13 [1; 0]]); (6, [De (-125) 3 [0; 2]; De (-416666666667) 13 [1; 1]; De 125 3 [2; 0]]); (7, [De (-104166666667) 13 [1; 0; 0]; De 208333333333 13 [0; 1; 0]; De (-125) 3 [3; 0]; De 125 3 [0; 3]; De (-7) 0 [5]; De (-833333333333) 14 [1; 2]; De 833333333333 14 [2; 1]; De (-104166666667) 13 [0; 0; 1]]); (8, [De 208333333333 14 [1; 1; 0]; De (-416666666667) 14 [0; 2; 0]; De (-416666666667) 14 [1; 0; 1]; De (-25) 3 [2; 2]; De 208333333333 14 [0; 1; 1]; De 125 3 [4; 0]; De 208333333333 14 [0; 0; 2]; De 208333333333 14 [2; 0; 0]; De (-125) 3 [0; 4]]); (9, [De (-357142857143) 14 [2; 3]; De 208333333333 14 [1; 2; 0]; De 125 3 [0; 5]; De 208333333333 14 [0; 2; 1]; De (-208333333333) 14 [0; 1; 2]; De (-125) 3 [5; 0]; De (-208333333333) 14 [2; 1; 0]; De 357142857143 14 [3; 2]; De (-135) 1 [7]]); (10, [De 595238095238 15 [3; 1; 0]; De (-892857142857) 15 [0; 3; 1]; De 297619047619 15 [1; 0; 3]; De (-178571428571) 13 [3; 3]; De (-595238095238) 15 [2; 0; 2]; De 119047619048 14 [1; 2; 1]; De (-595238095238) 15 [1; 1; 2]; De 297619047619 15 [2; 2; 0]; De (-125) 3 [0; 6]; De (-892857142857) 15 [1; 3; 0]; De 125 3 [6; 0]; De (-595238095238) 15 [2; 1; 1]; De 595238095238 15 [0; 1; 3]; De 297619047619 15 [0; 2; 2]; De 297619047619 15 [3; 0; 1]])]].
(** matscs_formulas.cpp: tH[4] *)
Definition wh_row4 : list wentry := [[(7, [De (-3125) 5 [1; 0; 0]; De 625 4 [0; 1; 0]; De (-75) 2 [3; 0]; De 75 2 [0; 3]; De (-315) 1 [5]; De 225 3 [1; 2]; De 275 3 [2; 1]; De (-3125) 5 [0; 0; 1]]); (8, [De 625 5 [0; 1; 1]; De (-75) 3 [0; 2; 0]; De (-125) 4 [1; 0; 1]; De (-75) 3 [2; 2]; De 125 3 [1; 3]; De 625 5 [1; 1; 0]; De 875 3 [4; 0]; De 375 4 [0; 0; 2]; De 125 3 [3; 1]; De 375 4 [2; 0; 0]; De (-875) 3 [0; 4]]); (9, [De 364285714286 12 [2; 3]; De (-46875) 7 [0; 1; 0; 0]; De 145833333333 13 [1; 0; 2]; De 625 5 [2; 0; 1]; De 25 2 [4; 1]; De (-15625) 7 [0; 0; 0; 1]; De 25 2 [1; 4]; De (-625) 5 [1; 2; 0]; De (-3125) 5 [0; 0; 3]; De 625 4 [0; 3; 0]; De (-1485) 1 [7]; De (-1875) 3 [5; 0]; De (-125) 4 [2; 1; 0]; De 135714285714 12 [3; 2]; De (-833333333333) 14 [0; 1; 2]; De 46875 7 [0; 0; 1; 0]; De (-3125) 5 [3; 0; 0]; De 15625 7 [1; 0; 0; 0]; De 625 5 [0; 2; 1]; De 1875 3 [0; 5]]); (10, [De 3125 5 [0; 0; 4]; De 520833333333 15 [0; 0; 0; 2]; De (-625) 4 [0; 4; 0]; De 3125 5 [4; 0; 0]; De 357142857143 14 [1; 2; 1]; De 520833333333 15 [0; 0; 1; 1]; De (-520833333333) 15 [2; 0; 0; 0]; De (-267857142857) 14 [1; 3; 0]; De 190972222222 14 [1; 0; 1; 0]; De 714285714286 13 [3; 3]; De (-178571428571) 14 [2; 0; 2]; De 297619047619 15 [1; 1; 2]; De (-868055555556) 15 [0; 1; 1; 0]; De 714285714286 14 [2; 2; 0]; De 225 2 [6; 0]; De 122023809524 13 [0; 1; 3]; De (-520833333333) 15 [1; 1; 0; 0]; De (-15625) 7 [0; 0; 2; 0]; De (-952380952381) 14 [1; 0; 3]; De 125 3 [5; 1]; De 15625 7 [0; 2; 0; 0]; De (-225) 2 [0; 6]; De (-868055555556) 15 [1; 0; 0; 1]; De (-535714285714) 14 [0; 2; 2]; De 113095238095 13 [3; 0; 1]; De (-386904761905) 14 [2; 1; 1]; De (-863095238095) 14 [3; 1; 0]; De 125 3 [1; 5]; De (-267857142857) 14 [0; 3; 1]; De (-173611111111) 15 [0; 1; 0; 1]])];
  [(7, [De (-125) 3 [0; 2]; De (-416666666667) 13 [1; 1]; De 125 3 [2; 0]; De 35 1 [4]]); (8, [De (-104166666667) 13 [1; 0; 0]; De 208333333333 13 [0; 1; 0]; De (-125) 3 [3; 0]; De 125 3 [0; 3]; De (-25) 3 [1; 2]; De 25 3 [2; 1]; De (-104166666667) 13 [0; 0; 1]]); (9, [De 208333333333 14 [0; 1; 1]; De (-416666666667) 14 [0; 2; 0]; De (-416666666667) 14 [1; 0; 1]; De (-25) 3 [2; 2]; De 9 0 [6]; De 208333333333 14 [1; 1; 0]; De 125 3 [4; 0]; De 208333333333 14 [0; 0; 2]; De 208333333333 14 [2; 0; 0]; De (-125) 3 [0; 4]]); (10, [De (-107142857143) 13 [2; 3]; De 208333333333 14 [1; 2; 0]; De 125 3 [0; 5]; De 208333333333 14 [0; 2; 1]; De (-125) 3 [5; 0]; De (-208333333333) 14 [2; 1; 0]; De 107142857143 13 [3; 2]; De (-208333333333) 14 [0; 1; 2]])];
  [(7, [De (-458333333333) 13 [0; 1; 1]; De 1125 4 [0; 2; 0]; De (-541666666667) 13 [1; 0; 1]; De 1425 3 [2; 2]; De 2 0 [1; 3]; De (-3465) 1 [6]; De 1 1 [1; 1; 0]; De (-4375) 3 [4; 0]; De (-5625) 5 [0; 0; 2]; De 2 0 [3; 1]; De (-5625) 5 [2; 0; 0]; De 4375 3 [0; 4]]); (8, [De 375 3 [2; 3]; De (-140625) 7 [0; 1; 0; 0]; De 4375 5 [1; 0; 2]; De (-4375) 5 [2; 0; 1]; De 875 3 [4; 1]; De (-46875) 7 [0; 0; 0; 1]; De (-1125) 4 [1; 2; 0]; De 15625 5 [0; 0; 3]; De (-3125) 4 [0; 3; 0]; De (-7875) 3 [0; 5]; De 7875 3 [5; 0]; De (-625) 5 [2; 1; 0]; De (-375) 3 [3; 2]; De 6875 5 [0; 1; 2]; De 140625 7 [0; 0; 1; 0]; De 15625 5 [3; 0; 0]; De 46875 7 [1; 0; 0; 0]; De 5 2 [0; 2; 1]; De (-875) 3 [1; 4]]); (9, [De (-28125) 5 [0; 0; 4]; De 572916666667 14 [0; 0; 0; 2]; De 5625 4 [0; 4; 0]; De (-28125) 5 [4; 0; 0]; De 119047619048 13 [1; 2; 1]; De 15625 7 [0; 0; 1; 1]; De (-572916666667) 14 [2; 0; 0; 0]; De 910714285714 13 [1; 3; 0]; De 325 2 [2; 4]; De 444642857143 11 [3; 3]; De 482142857143 13 [2; 0; 2]; De (-15625) 7 [0; 1; 1; 0]; De 133928571429 13 [2; 2; 0]; De (-23625) 3 [6; 0]; De (-919642857143) 13 [0; 1; 3]; De (-46875) 7 [1; 1; 0; 0]; De (-386904761905) 14 [2; 1; 1]; De (-171875) 7 [0; 0; 2; 0]; De 892857142857 15 [1; 0; 3]; De 109375 7 [1; 0; 1; 0]; De 171875 7 [0; 2; 0; 0]; De 330357142857 13 [3; 1; 0]; De 23625 3 [0; 6]; De (-46875) 7 [1; 0; 0; 1]; De 5375 3 [5; 1]; De (-616071428571) 13 [0; 2; 2]; De 892857142857 15 [3; 0; 1]; De (-2574) 0 [8]; De 325 2 [4; 2]; De (-386904761905) 14 [1; 1; 2]; De 5375 3 [1; 5]; De (-339285714286) 13 [0; 3; 1]; De (-15625) 7 [0; 1; 0; 1]]); (10, [De 678571428571 13 [0; 2; 3]; De (-104166666667) 14 [0; 0; 1; 0; 0]; De (-200892857143) 14 [2; 1; 0; 0]; De 111607142857 14 [0; 2; 0; 1]; De 419642857143 13 [0; 3; 2]; De (-379464285714) 14 [2; 0; 0; 1]; De 136408730159 14 [1; 0; 1; 1]; De 416666666667 13 [4; 0; 1]; De 647321428571 14 [2; 0; 1; 0]; De 3125 5 [0; 4; 1]; De (-258928571429) 13 [2; 0; 3]; De 543154761905 14 [3; 0; 0; 0]; De (-37125) 3 [0; 7]; De (-875) 3 [0; 5; 0]; De (-543154761905) 14 [0; 0; 0; 3]; De 4375 4 [0; 0; 5]; De (-419642857143) 13 [2; 3; 0]; De 379464285714 14 [1; 0; 0; 2]; De (-678571428571) 13 [3; 2; 0]; De (-9375) 5 [1; 4; 0]; De 982142857143 14 [2; 2; 1]; De 37125 3 [7; 0]; De (-245535714286) 14 [0; 2; 1; 0]; De (-14880952381) 12 [3; 1; 1]; De (-173611111111) 15 [0; 0; 0; 0; 1]; De (-875) 3 [3; 4]; De 669642857143 15 [0; 0; 2; 1]; De 245535714286 14 [1; 2; 0; 0]; De (-136408730159) 14 [1; 1; 0; 1]; De (-729166666667) 13 [4; 1; 0]; De (-173611111111) 15 [1; 0; 0; 0; 0]; De 349702380952 14 [0; 1; 2; 0]; De 162946428571 13 [0; 0; 3; 0]; De 694444444444 15 [0; 1; 0; 0; 0]; De 135416666667 12 [0; 1; 4]; De 225 2 [6; 1]; De (-416666666667) 13 [1; 0; 4]; De 4375 4 [5; 0; 0]; De (-215773809524) 14 [0; 0; 1; 2]; De 875 3 [4; 3]; De 258928571429 13 [3; 0; 2]; De 375 3 [2; 5]; De 14880952381 12 [1; 1; 3]; De (-225) 2 [1; 6]; De (-162946428571) 13 [0; 3; 0; 0]; De (-124007936508) 15 [1; 1; 1; 0]; De (-982142857143) 14 [1; 2; 2]; De 818452380952 15 [0; 1; 0; 2]; De 694444444444 15 [0; 0; 0; 1; 0]; De (-375) 3 [5; 2]; De 124007936508 15 [0; 1; 1; 1]; De (-840773809524) 14 [1; 0; 2; 0]])];
  [(7, [De 104166666667 13 [1; 0; 0]; De (-208333333333) 13 [0; 1; 0]; De 5 1 [3; 0]; De (-5) 1 [0; 3]; De 315 1 [5]; De (-275) 3 [1; 2]; De (-225) 3 [2; 1]; De 104166666667 13 [0; 0; 1]]); (8, [De (-145833333333) 13 [0; 1; 1]; De 5 2 [0; 2; 0]; De (-125) 4 [1; 0; 1]; De (-75) 3 [2; 2]; De 125 3 [1; 3]; De 270833333333 13 [1; 1; 0]; De (-875) 3 [4; 0]; De (-25) 3 [0; 0; 2]; De 125 3 [3; 1]; De (-25) 3 [2; 0; 0]; De 875 3 [0; 4]]); (9, [De (-135714285714) 12 [2; 3]; De (-46875) 7 [0; 1; 0; 0]; De (-625) 5 [1; 0; 2]; De (-208333333333) 14 [1; 2; 0]; De (-145833333333) 13 [2; 0; 1]; De (-25) 2 [4; 1]; De (-15625) 7 [0; 0; 0; 1]; De (-25) 2 [1; 4]; De 3125 5 [0; 0; 3]; De (-625) 4 [0; 3; 0]; De 1485 1 [7]; De 1625 3 [5; 0]; De 416666666667 14 [2; 1; 0]; De (-364285714286) 12 [3; 2]; De 833333333333 14 [0; 1; 2]; De 46875 7 [0; 0; 1; 0]; De 3125 5 [3; 0; 0]; De 15625 7 [1; 0; 0; 0]; De 104166666667 13 [0; 2; 1]; De (-1625) 3 [0; 5]]); (10, [De (-3125) 5 [0; 0; 4]; De 520833333333 15 [0; 0; 0; 2]; De 625 4 [0; 4; 0]; De (-3125) 5 [4; 0; 0]; De 357142857143 14 [1; 2; 1]; De 520833333333 15 [0; 0; 1; 1]; De (-520833333333) 15 [2; 0; 0; 0]; De (-267857142857) 14 [1; 3; 0]; De 190972222222 14 [1; 0; 1; 0]; De 714285714286 13 [3; 3]; De (-178571428571) 14 [2; 0; 2]; De (-386904761905) 14 [1; 1; 2]; De (-868055555556) 15 [0; 1; 1; 0]; De 714285714286 14 [2; 2; 0]; De (-225) 2 [6; 0]; De (-863095238095) 14 [0; 1; 3]; De (-520833333333) 15 [1; 1; 0; 0]; De (-15625) 7 [0; 0; 2; 0]; De 113095238095 13 [1; 0; 3]; De 125 3 [5; 1]; De 15625 7 [0; 2; 0; 0]; De 225 2 [0; 6]; De (-868055555556) 15 [1; 0; 0; 1]; De (-535714285714) 14 [0; 2; 2]; De (-952380952381) 14 [3; 0; 1]; De 297619047619 15 [2; 1; 1]; De 122023809524 13 [3; 1; 0]; De 125 3 [1; 5]; De (-267857142857) 14 [0; 3; 1]; De (-173611111111) 15 [0; 1; 0; 1]])]].
(** matscs_formulas.cpp: tH[5] *)
Definition wh_row5 : list wentry := [[(9, [De (-192857142857) 11 [2; 3]; De (-125) 4 [0; 1; 0; 0]; De 25 3 [1; 0; 2]; De 375 4 [2; 0; 1]; De (-275) 2 [4; 1]; De (-416666666667) 14 [0; 0; 0; 1]; De (-25) 1 [1; 4]; De 208333333333 13 [1; 1; 1]; De (-75) 3 [1; 2; 0]; De 125 3 [0; 0; 3]; De (-25) 2 [0; 3; 0]; De 6435 1 [7]; De 9 0 [5; 0]; De (-1) 1 [2; 1; 0]; De (-182142857143) 11 [3; 2]; De 5 2 [0; 1; 2]; De 125 4 [0; 0; 1; 0]; De 125 3 [3; 0; 0]; De 416666666667 14 [1; 0; 0; 0]; De 625 4 [0; 2; 1]; De (-9) 0 [0; 5]]); (10, [De (-25) 2 [0; 0; 4]; De 625 5 [0; 0; 0; 2]; De 5 1 [0; 4; 0]; De (-25) 2 [4; 0; 0]; De 178571428571 13 [1; 2; 1]; De 208333333333 14 [0; 0; 1; 1]; De (-625) 5 [2; 0; 0; 0]; De 178571428571 13 [1; 3; 0]; De 375 3 [2; 4]; De (-267857142857) 12 [3; 3]; De (-214285714286) 13 [2; 0; 2]; De 357142857143 14 [1; 1; 2]; De (-416666666667) 14 [0; 1; 1; 0]; De 857142857143 13 [2; 2; 0]; De (-12375) 3 [6; 0]; De (-535714285714) 13 [0; 1; 3]; De 375 3 [4; 2]; De (-1875) 5 [0; 0; 2; 0]; De 357142857143 13 [1; 0; 3]; De 416666666667 14 [1; 0; 1; 0]; De 1875 5 [0; 2; 0; 0]; De 12375 3 [0; 6]; De (-208333333333) 14 [1; 0; 0; 1]; De (-1125) 3 [5; 1]; De (-642857142857) 13 [0; 2; 2]; De 357142857143 13 [3; 0; 1]; De 357142857143 14 [2; 1; 1]; De 892857142857 14 [3; 1; 0]; De (-1125) 3 [1; 5]; De (-446428571429) 13 [0; 3; 1]])];
  [(9, [De 125 4 [1; 1; 0]; De 375 4 [0; 2; 0]; De (-416666666667) 14 [1; 0; 1]; De 225 3 [2; 2]; De 25 2 [1; 3]; De (-495) 1 [6]; De (-833333333333) 14 [0; 1; 1]; De (-875) 3 [4; 0]; De (-1875) 5 [0; 0; 2]; De 25 2 [3; 1]; De (-1875) 5 [2; 0; 0]; De 875 3 [0; 4]]); (10, [De (-535714285714) 13 [2; 3]; De (-46875) 7 [0; 1; 0; 0]; De (-625) 5 [1; 0; 2]; De 625 5 [2; 0; 1]; De (-125) 3 [4; 1]; De (-15625) 7 [0; 0; 0; 1]; De 125 3 [1; 4]; De 3125 5 [0; 0; 3]; De (-625) 4 [0; 3; 0]; De (-1125) 3 [0; 5]; De 1125 3 [5; 0]; De (-1875) 5 [2; 1; 0]; De 535714285714 13 [3; 2]; De 625 5 [0; 1; 2]; De 46875 7 [0; 0; 1; 0]; De 3125 5 [3; 0; 0]; De 15625 7 [1; 0; 0; 0]; De 125 4 [0; 2; 1]])];
  [(9, [De 625 3 [0; 0; 4]; De (-625) 5 [0; 0; 0; 2]; De (-125) 2 [0; 4; 0]; De 625 3 [4; 0; 0]; De 180357142857 12 [1; 2; 1]; De (-520833333333) 14 [0; 0; 1; 1]; De 625 5 [2; 0; 0; 0]; De (-607142857143) 12 [1; 3; 0]; De (-20625) 3 [2; 4]; De (-190178571429) 10 [3; 3]; De 166071428571 12 [2; 0; 2]; De 166666666667 13 [0; 1; 1; 0]; De (-439285714286) 12 [2; 2; 0]; De 86625 3 [6; 0]; De 321428571429 12 [0; 1; 3]; De (-1875) 5 [1; 1; 0; 0]; De 141071428571 12 [2; 1; 1]; De 1875 5 [0; 0; 2; 0]; De 285714285714 12 [1; 0; 3]; De 208333333333 13 [1; 0; 1; 0]; De (-1875) 5 [0; 2; 0; 0]; De (-678571428571) 12 [3; 1; 0]; De (-86625) 3 [0; 6]; De (-729166666667) 14 [1; 0; 0; 1]; De (-32625) 3 [5; 1]; De 273214285714 12 [0; 2; 2]; De 285714285714 12 [3; 0; 1]; De 96525 1 [8]; De (-20625) 3 [4; 2]; De 141071428571 12 [1; 1; 2]; De (-32625) 3 [1; 5]; De 392857142857 12 [0; 3; 1]; De (-625) 5 [0; 1; 0; 1]]); (10, [De (-441964285714) 12 [0; 2; 3]; De (-3125) 6 [0; 0; 1; 0; 0]; De 714285714286 14 [2; 1; 0; 0]; De 401785714286 14 [0; 2; 0; 1]; De (-508928571429) 12 [0; 3; 2]; De (-803571428571) 14 [2; 0; 0; 1]; De 178571428571 14 [1; 0; 1; 1]; De 28125 5 [4; 0; 1]; De 120535714286 13 [2; 0; 1; 0]; De (-53125) 5 [0; 4; 1]; De 120535714286 12 [2; 0; 3]; De (-223214285714) 13 [3; 0; 0; 0]; De 160875 3 [0; 7]; De 39375 4 [0; 5; 0]; De 223214285714 13 [0; 0; 0; 3]; De (-196875) 5 [0; 0; 5]; De 321428571429 12 [2; 3; 0]; De 803571428571 14 [1; 0; 0; 2]; De (-120535714286) 12 [3; 0; 2]; De 96875 5 [1; 4; 0]; De 803571428571 13 [2; 2; 1]; De (-160875) 3 [7; 0]; De (-263392857143) 13 [0; 2; 1; 0]; De 401785714286 13 [3; 1; 1]; De (-520833333333) 15 [0; 0; 0; 0; 1]; De 1875 3 [3; 4]; De 111607142857 13 [0; 0; 2; 1]; De 294642857143 13 [1; 2; 0; 0]; De (-178571428571) 14 [1; 1; 0; 1]; De 25 2 [4; 1; 0]; De (-520833333333) 15 [1; 0; 0; 0; 0]; De (-330357142857) 13 [0; 1; 2; 0]; De (-669642857143) 13 [0; 0; 3; 0]; De 208333333333 14 [0; 1; 0; 0; 0]; De (-6875) 4 [0; 1; 4]; De (-12375) 3 [6; 1]; De (-28125) 5 [1; 0; 4]; De (-196875) 5 [5; 0; 0]; De 116071428571 13 [0; 0; 1; 2]; De (-1875) 3 [4; 3]; De 629464285714 12 [3; 2; 0]; De (-3375) 3 [2; 5]; De (-401785714286) 13 [1; 1; 3]; De 12375 3 [1; 6]; De 669642857143 13 [0; 3; 0; 0]; De (-46130952381) 13 [1; 1; 1; 0]; De (-803571428571) 13 [1; 2; 2]; De 982142857143 14 [0; 1; 0; 2]; De 208333333333 14 [0; 0; 0; 1; 0]; De 3375 3 [5; 2]; De 46130952381 13 [0; 1; 1; 1]; De (-258928571429) 13 [1; 0; 2; 0]])];
  [(9, [De 182142857143 11 [2; 3]; De 3125 6 [0; 1; 0; 0]; De (-375) 4 [1; 0; 2]; De (-25) 3 [2; 0; 1]; De 25 1 [4; 1]; De 104166666667 14 [0; 0; 0; 1]; De 275 2 [1; 4]; De (-208333333333) 13 [1; 1; 1]; De 75 3 [1; 2; 0]; De (-625) 4 [0; 0; 3]; De 125 3 [0; 3; 0]; De (-6435) 1 [7]; De (-675) 2 [5; 0]; De 625 4 [2; 1; 0]; De 192857142857 11 [3; 2]; De (-375) 4 [0; 1; 2]; De (-3125) 6 [0; 0; 1; 0]; De (-625) 4 [3; 0; 0]; De (-104166666667) 14 [1; 0; 0; 0]; De (-375) 4 [0; 2; 1]; De 675 2 [0; 5]]); (10, [De 1875 4 [0; 0; 4]; De (-3125) 6 [0; 0; 0; 2]; De (-375) 3 [0; 4; 0]; De 1875 4 [4; 0; 0]; De 178571428571 13 [1; 2; 1]; De (-208333333333) 14 [0; 0; 1; 1]; De 3125 6 [2; 0; 0; 0]; De (-107142857143) 12 [1; 3; 0]; De 375 3 [2; 4]; De (-267857142857) 12 [3; 3]; De (-214285714286) 13 [2; 0; 2]; De 625 5 [0; 1; 1; 0]; De (-267857142857) 13 [2; 2; 0]; De 12375 3 [6; 0]; De 714285714286 13 [0; 1; 3]; De (-625) 5 [1; 1; 0; 0]; De 357142857143 14 [2; 1; 1]; De 9375 6 [0; 0; 2; 0]; De 357142857143 13 [1; 0; 3]; De 625 5 [1; 0; 1; 0]; De (-9375) 6 [0; 2; 0; 0]; De (-116071428571) 12 [3; 1; 0]; De (-12375) 3 [0; 6]; De (-208333333333) 14 [1; 0; 0; 1]; De (-1125) 3 [5; 1]; De 482142857143 13 [0; 2; 2]; De 357142857143 13 [3; 0; 1]; De 375 3 [4; 2]; De 357142857143 14 [1; 1; 2]; De (-1125) 3 [1; 5]; De 803571428571 13 [0; 3; 1]; De (-208333333333) 14 [0; 1; 0; 1]])]].
Definition wdelta_table : list (list (list wentry)) := [wdelta_row0; wdelta_row1; wdelta_row2; wdelta_row3; wdelta_row4].
Definition wh_table : list (list wentry) := [wh_row0; wh_row1; wh_row2; wh_row3; wh_row4; wh_row5].
