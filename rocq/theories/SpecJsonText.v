(* Specification of JSON as text: which strings survive. *)
From Verif Require Import PyStr Model Json.

Definition high_surrogate (c : N) : Prop := (55296 <= c <= 56319)%N.
Definition low_surrogate (c : N) : Prop := (56320 <= c <= 57343)%N.
(* code points, and no two that together would be one *)
Definition apart (s : str) : Prop :=
  (forall c, In c s -> (c < 1114112)%N) /\ (forall l a b r, s = l ++ a :: b :: r -> high_surrogate a -> ~ low_surrogate b).
(* characters of texts that were decoded *)
Definition scalar (c : N) : Prop := (c < 1114112)%N /\ ~ high_surrogate c /\ ~ low_surrogate c.
(* printable ASCII; line feeds only if there is an indentation *)
Definition plain_char (c : N) : Prop := (32 <= c <= 126)%N.
Definition written_char (indent : option nat) (c : N) : Prop := plain_char c \/ indent <> None /\ c = 10%N.
Inductive json_apart : json -> Prop :=
| Apart_str s : apart s -> json_apart (JStr s)
| Apart_arr l : Forall json_apart l -> json_apart (JArr l)
| Apart_obj d : NoDup (map fst d) -> Forall (fun kv => apart (fst kv) /\ json_apart (snd kv)) d -> json_apart (JObj d).

(* all strings of a corpus *)
Definition of_opt (o : option str) : list str := match o with Some s => [s] | None => [] end.
Definition of_dict (d : dict str) : list str := map fst d ++ map snd d.
Definition of_attrs (a : attrs) : list str :=
  of_opt (a_id a) ++ of_opt (a_type a) ++ of_dict (a_dict a) ++ of_opt (a_ns a) ++ match a_nsmap a with Some m => of_dict m | None => [] end.
Fixpoint of_child (m : mchild) : list str :=
  match m with MChild n a t kids => n :: of_attrs a ++ of_opt t ++ flat_map of_child kids end.
Definition of_meta (m : meta) : list str := of_attrs (me_attrs m) ++ of_opt (me_text m) ++ flat_map of_child (me_kids m).
Definition of_metadata (m : metadata) : list str := of_attrs (md_attrs m) ++ flat_map of_meta (md_metas m).
Definition of_item (i : item) : list str := of_attrs (it_attrs i) ++ of_opt (it_text i).
Definition of_tier (t : tier) : list str := of_attrs (t_attrs t) ++ flat_map of_metadata (t_md t) ++ flat_map of_item (t_items t).
Definition of_igt (g : igt) : list str := of_attrs (g_attrs g) ++ flat_map of_metadata (g_md g) ++ flat_map of_tier (g_tiers g).
Definition of_corpus (c : corpus) : list str := of_attrs (c_attrs c) ++ flat_map of_metadata (c_md c) ++ flat_map of_igt (c_igts c).
