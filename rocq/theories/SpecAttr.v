(* Specification of attribute and metadata lookup and of select. *)
From Verif Require Import PyStr Model.

(* the attribute name a key and a namespace stand for, given the prefixes *)
Definition no_colon (k : str) : Prop := ~ In (Ch ":") k.
Definition clark (uri name : str) : str := [Ch "{"] ++ uri ++ [Ch "}"] ++ name.
Inductive names (m : str -> option str) : str -> option str -> str -> Prop :=
| nm_plain k : no_colon k -> names m k None k
| nm_full k : names m (Ch "{" :: k) None (Ch "{" :: k)
| nm_prefix p n uri : no_colon p -> ~ (exists r, p = Ch "{" :: r) -> m p = Some uri ->
    names m (p ++ Ch ":" :: n) None (clark uri n)
| nm_ns p n uri : no_colon n -> m p = Some uri -> names m n (Some p) (clark uri n)
| nm_uri u n : no_colon n -> m u = None -> u <> [] -> names m n (Some u) (clark u n)
| nm_empty n : no_colon n -> m [] = None -> names m n (Some []) n.

(* the prefixes in force: those of the nearest object that has any map *)
Inductive prefixes : list attrs -> (str -> option str) -> Prop :=
| px_own a ps m : a_nsmap a = Some m -> prefixes (a :: ps) (dget m)
| px_inherit a ps m : a_nsmap a = None -> prefixes ps m -> prefixes (a :: ps) m
| px_none : prefixes [] (fun _ => None).

(* the first of a list of objects that has the attribute *)
Inductive nearest (k : str) : list attrs -> option str -> Prop :=
| nr_here a ps v : dget (a_dict a) k = Some v -> nearest k (a :: ps) (Some v)
| nr_later a ps r : dget (a_dict a) k = None -> nearest k ps r -> nearest k (a :: ps) r
| nr_none : nearest k [] None.
Definition or_default (o d : option str) : option str := match o with Some v => Some v | None => d end.

(* the metas a get_meta call asks for *)
Definition wanted (key : option str) (conds : list (meta -> bool)) (m : meta) : Prop :=
  a_type (me_attrs m) = key /\ forall c, In c conds -> c m = true.
(* l is the sublist of xs of the elements with P, in order *)
Inductive picked {A} (P : A -> Prop) : list A -> list A -> Prop :=
| pk_nil : picked P [] []
| pk_yes x xs l : P x -> picked P xs l -> picked P (x :: xs) (x :: l)
| pk_no x xs l : ~ P x -> picked P xs l -> picked P (x :: xs) l.
Definition xigt_metas (mds : list metadata) : list meta -> Prop :=
  fun all => exists l, picked (fun md => a_type (md_attrs md) = Some (L "xigt-meta")) mds l /\ all = concat (map md_metas l).
Definition metas_of (key : option str) (conds : list (meta -> bool)) (mds : list metadata) (l : list meta) : Prop :=
  exists all, xigt_metas mds all /\ picked (wanted key conds) all l.

(* the criteria after the replacement of a namespace prefix *)
Definition criterion (m : str -> option str) (k : str) (v : option str) : option str :=
  match v with
  | Some p => if str_eqb k (L "namespace") then match m p with Some uri => Some uri | None => Some p end else Some p
  | None => None
  end.
Definition meets {A} (ga : A -> str -> option str) (m : str -> option str) (kwargs : dict (option str)) (x : A) : Prop :=
  forall k v, In (k, v) kwargs -> ga x k = criterion m k v.
