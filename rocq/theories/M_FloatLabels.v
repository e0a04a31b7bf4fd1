(** Class labels stored as float64 numbers.  HubnessAnalysis always stores them so
    (hubness_analysis.py:138); knn_classification.py:109 and 335 turn them into integers
    with [astype(int)], goodman_kruskal.py:74-78 compares them as they are. *)
From Coq Require Import String.
From Coq Require Import ZArith List Arith Bool.
From Flocq Require Import BinarySingleNaN.
From Verif Require Import Py Num Arr Sort S_Neighbors M_IO M_GK M_SNN M_KNN.
Import ListNotations.
Local Open Scope nat_scope.

(** [target.astype(int)] of one float64 label (knn_classification.py:109): rounding towards
    zero.  What numpy does with NaN, infinities and numbers beyond int64 is not modelled;
    the theorems are about labels below 2^63. *)
Definition astype_int (x : f64) : Z := Btrunc x.

(** knn_classification.py:25-255 score, called with float64 labels (line 109) *)
Definition score_float argsort rp sh (D : arr2 f64) (target : list f64) (ks : list Z) (metric : string)
    (test sample : option (list nat)) : result (list (@kst f64)) :=
  score argsort rp sh D (map astype_int target) ks metric test sample.

(** goodman_kruskal.py:74, 77, 81 use the labels only in [np.unique], [==] and [!=].  A
    finite float64 number is an integer multiple of 2^-1074; the multiple stands for the
    label, so both the order and the equality of labels are those of the numbers. *)
Definition label_key (x : f64) : Z :=
  match x with
  | B754_finite s m e _ => SpecFloat.cond_Zopp s (Z.pos m * 2 ^ (e + 1074))%Z
  | _ => 0%Z
  end.

(** goodman_kruskal.py:25-127 goodman_kruskal_index, called with finite float64 labels *)
Definition gk_index_float argsort sort (D : arr2 f64) (target : list f64) (metric : string) : result f64 :=
  goodman_kruskal_index argsort sort D (map label_key target) metric.
