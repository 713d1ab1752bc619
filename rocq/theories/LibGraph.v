(** PageRank of the graph objects of the library.  Model only. *)
From Verif Require Import Base Num Lib Graphs.

(** lib.py:47-88 (pagerank) called with a graph of sparse/graphs.py: the matrix it asks for (55-58) is boolean when the graph is unweighted
    or [weighted] is false, and has the dtype of the weights otherwise; [normalise_rows] keeps that dtype (lib.py:10).  [of_weights] and
    [to_bool] are the conversions of a float to the dtype of the weights and to a boolean. *)
Definition graph_pagerank (of_weights to_bool : num -> num) (N : nat) (s : shape) (weighted : bool) (alpha : R) (max_iter : nat) (tol : R)
    : res ((nat -> num) * verdict) :=
  do A <- adjacency_matrix N s true weighted ;
  pagerank (if sp_bool A then to_bool else of_weights) N (sp_row A) alpha max_iter tol.
