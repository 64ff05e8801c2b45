(** The values a sum may take when its terms are added in an unspecified order. *)
From Coq Require Import List Permutation.
From Verif Require Import Base.Num.

(** [adds add mul fma fused l v]: [v] is the result of replacing, as long as there are two terms, some two
    of them by their sum.  A product may be rounded before it is added, or, where fused operations
    are available, added in one operation. *)
Inductive adds {T} (add mul : T -> T -> T) (fma : T -> T -> T -> T) (fused : Prop) : list (term T) -> T -> Prop :=
| adds_value x : adds add mul fma fused (Val x :: nil) x
| adds_product w x : adds add mul fma fused (Prod w x :: nil) (mul w x)
| adds_round l w x r v : Permutation l (Prod w x :: r) ->
    adds add mul fma fused (Val (mul w x) :: r) v -> adds add mul fma fused l v
| adds_two l x y r v : Permutation l (Val x :: Val y :: r) ->
    adds add mul fma fused (Val (add x y) :: r) v -> adds add mul fma fused l v
| adds_fused l x w y r v : Permutation l (Val x :: Prod w y :: r) -> fused ->
    adds add mul fma fused (Val (fma w y x) :: r) v -> adds add mul fma fused l v.
