(* What xigt sort is for: the same corpus in another order. *)
From Coq Require Import Permutation Sorted.
From Verif Require Import PyStr Model Scripts SpecScripts Path SpecPath Command.

(* the same objects, with igts, tiers and items in another order *)
Definition reordered_tier (t t' : tier) : Prop :=
  t_attrs t' = t_attrs t /\ t_md t' = t_md t /\ Permutation (t_items t') (t_items t).
Definition reordered_igt (g g' : igt) : Prop :=
  g_attrs g' = g_attrs g /\ g_md g' = g_md g
  /\ exists ts, Permutation ts (g_tiers g) /\ Forall2 reordered_tier ts (g_tiers g').
Definition reordered (c c' : corpus) : Prop :=
  c_attrs c' = c_attrs c /\ c_md c' = c_md c
  /\ exists gs, Permutation gs (c_igts c) /\ Forall2 reordered_igt gs (c_igts c').

(* an object with its ancestors before and after *)
Definition reordered_obj (o o' : obj) : Prop :=
  match o, o' with
  | PTier t, PTier t' => reordered_tier t t'
  | PIgt g, PIgt g' => reordered_igt g g'
  | PCorpus c, PCorpus c' => reordered c c'
  | _, _ => o = o'
  end.
Definition reordered_node (n n' : pnode) : Prop := Forall2 reordered_obj (n_obj n :: n_up n) (n_obj n' :: n_up n').

(* the text found does not depend on the order of igts, tiers and items *)
Definition order_blind {U : Unicode} ix vfuel (what : obj -> Prop) (path : str) : Prop :=
  forall n n', what (n_obj n) -> reordered_node n n' -> text_at ix vfuel n path = text_at ix vfuel n' path.
Definition an_igt (o : obj) : Prop := exists g, o = PIgt g.
Definition a_tier (o : obj) : Prop := exists t, o = PTier t.
Definition an_item (o : obj) : Prop := exists i, o = PItem i.
Definition each (l : option (list str)) (P : str -> Prop) : Prop := forall p ps, l = Some ps -> In p ps -> P p.

(* steps down, to attributes and to text, without predicates *)
Definition downward (h : head) : Prop :=
  match h with HChild _ | HDesc _ | HAttr _ | HSelf => True | HCall f a => f = L "text" /\ a = None | _ => False end.
Definition plain_path (hs : list head) : path := Path false (map (fun h => (h, [])) hs).
(* what an object has of its own: attributes and metadata *)
Definition own_step (h : head) : Prop :=
  match h with HAttr _ => True | HChild n => n = L "metadata" | _ => False end.

(* the texts found by the paths, one after the other, each cut into runs *)
Definition keyed {U : Unicode} (text_of : str -> res (option str)) (paths : list str) (k : list piece) : Prop :=
  exists ts ks, Forall2 (fun p t => text_of p = Ok t) paths ts
    /\ Forall2 (fun t k => natural (match t with Some s => s | None => [] end) k) ts ks /\ k = concat ks.

(* at most one path; it always gives a text or nothing *)
Definition single (l : option (list str)) (P : str -> Prop) : Prop := l = None \/ exists p, l = Some [p] /\ P p.
Definition texts_for {U : Unicode} ix vfuel (what : obj -> Prop) (path : str) : Prop :=
  forall n, what (n_obj n) -> exists t, text_at ix vfuel n path = Ok t.
Definition a_member (o : obj) : Prop := an_igt o \/ a_tier o \/ an_item o.
(* a list given with commas *)
Definition by_commas (s : str) (l : list str) : Prop :=
  s = join (L ",") l /\ l <> [] /\ Forall (fun w => ~ In (Ch ",") w) l.
(* without the white space around it *)
Definition trimmed {U : Unicode} (s t : str) : Prop :=
  (exists u v, s = u ++ t ++ v /\ Forall (fun c => cclass c = USpace) (u ++ v))
  /\ (forall c r, t = c :: r -> cclass c <> USpace) /\ (forall c r, t = r ++ [c] -> cclass c <> USpace).

(* what a path finds: the first result if it is a text; nothing if there is no
   result, or the first one is None or has no members *)
Definition empty_value (v : pval) : Prop :=
  match v with
  | VNone | VList [] => True
  | VNode n => match n_obj n with
               | PTier t => t_items t = [] | PIgt g => g_tiers g = [] | PCorpus c => c_igts c = []
               | PMetadata m => md_metas m = [] | PMeta m => me_kids m = [] | PChild (MChild _ _ _ k) => k = []
               | PItem _ => False
               end
  | _ => False
  end.
Definition finds {U : Unicode} ix vfuel (n : pnode) (path : str) (t : option str) : Prop :=
  match t with
  | Some s => find ix vfuel (VNode n) path = Ok (Some (VStr s))
  | None => find ix vfuel (VNode n) path = Ok None \/ exists v, find ix vfuel (VNode n) path = Ok (Some v) /\ empty_value v
  end.

(* the keys the options ask for, given the corpus *)
Definition key_asked {U : Unicode} ix vfuel (paths : list str) (n : pnode) (r : res (list piece)) : Prop :=
  forall k, r = Ok k <-> exists ts ks, Forall2 (finds ix vfuel n) paths ts
    /\ Forall2 (fun t k => natural (match t with Some s => s | None => [] end) k) ts ks /\ k = concat ks.
Definition asked {U : Unicode} ix vfuel (o : sort_opts) (c : corpus) (a : sort_args) : Prop :=
  match igt_key o, by_igt a with
  | None, None => True
  | Some l, Some key => forall g, key_asked ix vfuel l {| n_obj := PIgt g; n_up := [PCorpus c] |} (key g)
  | _, _ => False
  end
  /\ match tier_key o, by_tier a with
     | None, None => True
     | Some l, Some key => forall g t, key_asked ix vfuel l {| n_obj := PTier t; n_up := [PIgt g; PCorpus c] |} (key g t)
     | _, _ => False
     end
  /\ match item_key o, by_item a with
     | None, None => True
     | Some l, Some key => forall g t i, key_asked ix vfuel l {| n_obj := PItem i; n_up := [PTier t; PIgt g; PCorpus c] |} (key g t i)
     | _, _ => False
     end
  /\ match tier_deps o, by_deps a with
     | None, None | Some [], None => True
     | Some s, Some ras => s <> [] /\ exists parts, by_commas s parts /\ Forall2 trimmed parts ras
     | _, _ => False
     end.
