(** * What objects stand for *)
From Verif Require Import Base NumModel NumHeapModel.

(** [stands s x e]: the int or object [x] is the expression [e], read off the objects it holds, down to the ints. *)
Inductive stands (s : store) : item -> cnt -> Prop :=
| stands_int z : stands s (Int z) (I z)
| stands_add i l r d a b : nth_error (objects s) i = Some (Object (SAdd l r) d) ->
    stands s l a -> stands s (Obj r) b -> stands s (Obj i) (Add a b)
| stands_mul i l r d a b : nth_error (objects s) i = Some (Object (SMul l r) d) ->
    stands s l a -> stands s (Obj r) b -> stands s (Obj i) (Mul a b)
| stands_div i n q d a : nth_error (objects s) i = Some (Object (SDiv n q) d) ->
    stands s (Obj n) a -> stands s (Obj i) (Div a q)
| stands_exp i b x d a : nth_error (objects s) i = Some (Object (SExp b x) d) ->
    stands s x a -> stands s (Obj i) (Exp b a).

(** An int, or an object that has been made. *)
Definition made (s : store) (x : item) : Prop :=
  match x with Int _ => True | Obj i => (i < length (objects s))%nat end.

(** One request for a number, from ints and objects made before; [t] is the store after it and [r] the object. *)
Inductive request (s : store) : store -> option nat -> Prop :=
| req_add l r t o : made s l -> made s (Obj r) -> make_add s l r = (t, o) -> request s t o
| req_mul ok l r t o : made s l -> made s (Obj r) -> make_mul ok s l r = (t, o) -> request s t o
| req_div n d t o : made s (Obj n) -> make_div s n d = (t, o) -> request s t o
| req_exp b x t o : made s x -> make_exp s b x = (t, o) -> request s t o
| req_tet b h t o : make_tet s b h = (t, o) -> request s t o.

(** [later s t]: any requests, in any order, lead from [s] to [t]. *)
Inductive later (s : store) : store -> Prop :=
| later_now : later s s
| later_then t u o : later s t -> request t u o -> later s u.

(** A store that can come about. *)
Definition possible (s : store) : Prop := later empty s.
