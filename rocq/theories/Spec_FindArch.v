(* For Props_FindArch.v. *)
From Verif Require Import Prelude.
Local Open Scope string_scope.
(* the characters of s *)
Definition without (c : ascii) (s : string) : Prop := forall a b, s <> a ++ String c b.
(* e occurs in s nowhere but at the start *)
Definition only_first (e s : string) : Prop := forall a b, s = a ++ e ++ b -> a = "".
(* names in order, no two of them in the wrong order *)
Definition in_name_order (l : list string) : Prop := Sorted.StronglySorted (fun x y => (x <=? y)%string = true) l.
