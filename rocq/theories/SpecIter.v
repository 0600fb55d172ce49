(* Specification of the loading modes: what a client sees. *)
From Verif Require Import PyStr Model Value Iter.

(* the ids of the igts are distinct *)
Definition distinct_ids (l : list igt) : Prop :=
  forall a b i, nth_error l a <> None -> option_map igt_id (nth_error l a) = Some (Some i) ->
    option_map igt_id (nth_error l b) = Some (Some i) -> a = b.

(* everything handed out, in order *)
Fixpoint delivered (rs : list reply) : list igt :=
  match rs with
  | [] => []
  | Yield g :: rs => g :: delivered rs
  | _ :: rs => delivered rs
  end.

(* every igt of the corpus in order, then the end, from a fresh iterator *)
Definition iterates (x : xcorpus) (l : list igt) (x' : xcorpus) : Prop :=
  exists its h its', (forall k, its k = INew) /\ (forall k, In k h -> k = 0)
    /\ run x its h = (x', its', map Yield l ++ [Stop]).
