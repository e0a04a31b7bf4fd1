(** Sequential specification of a counter: the results of performing the
    operations one after the other. *)
From Coq Require Import ZArith List.
Import ListNotations.
Local Open Scope Z_scope.

(** an operation is an increment by n or a read *)
Inductive cop := Inc (n : Z) | Get.
Definition amount (o : cop) : Z := match o with Inc n => n | Get => 0 end.

(** C int arithmetic: 32 bits, two's complement *)
Definition int32 (z : Z) : Z := (z + 2 ^ 31) mod 2 ^ 32 - 2 ^ 31.

(** results of the operations [ops], in order, on a counter that holds [v] *)
Fixpoint seq_results (v : Z) (ops : list cop) : list Z :=
  match ops with
  | [] => []
  | o :: ops' => int32 (v + amount o) :: seq_results (v + amount o) ops'
  end.
Definition total (ops : list cop) : Z := fold_right (fun o s => amount o + s) 0 ops.
