(* Independent specification of XigtPath: the syntax of paths as trees and how
   they are written, document order by positions, what is lost by tokenizing.
   No proofs here.  Of the model only the values and the tree types are used. *)
From Coq Require Import Sorted.
From Verif Require Import PyStr Model Path.

(* ---------- syntax ---------- *)

(* a step is a head with predicates; a group has at least one alternative *)
Inductive head :=
| HChild (name : str)                 (* name, or * *)
| HDesc (name : str)                  (* //name *)
| HAttr (name : str)                  (* @name *)
| HUp                                 (* .. *)
| HSelf                               (* . *)
| HCall (f : str) (arg : option str)  (* f(), f("arg") *)
| HGroup (alt : path) (alts : list path)    (* (alt | alts) *)
with path := Path (absolute : bool) (steps : list (head * list pred))
(* [sub] is Pred sub None, [sub="lit"] is Pred sub (Some (false, lit)), [sub!="lit"] is Pred sub (Some (true, lit)) *)
with pred := Pred (sub : path) (test : option (bool * str)).

Definition quoted (s : str) : str := L """" ++ s ++ L """".
Definition is_desc (h : head) : bool := match h with HDesc _ => true | _ => false end.
Definition slash_if (b : bool) : list str := if b then [L "/"] else [].

(* the tokens of a path; the slash before a step is written unless the step is //name *)
Fixpoint head_toks (h : head) : list str :=
  match h with
  | HChild n => [n]
  | HDesc n => [L "//"; n]
  | HAttr n => [L "@"; n]
  | HUp => [L ".."]
  | HSelf => [L "."]
  | HCall f None => [f; L "("; L ")"]
  | HCall f (Some a) => [f; L "("; quoted a; L ")"]
  | HGroup p ps => L "(" :: path_toks p ++ flat_map (fun q => L "|" :: path_toks q) ps ++ [L ")"]
  end
with path_toks (p : path) : list str :=
  match p with
  | Path a ss =>
    (fix go (first : bool) (ss : list (head * list pred)) : list str :=
       match ss with
       | [] => []
       | (h, ps) :: ss' =>
         slash_if (negb (is_desc h) && (a || negb first)) ++ head_toks h ++ flat_map pred_toks ps ++ go false ss'
       end) true ss
  end
with pred_toks (q : pred) : list str :=
  match q with
  | Pred sub test =>
    L "[" :: path_toks sub
    ++ match test with Some (neg, lit) => [if neg then L "!=" else L "="; quoted lit] | None => [] end ++ [L "]"]
  end.

(* the path as text *)
Definition show (p : path) : str := concat (path_toks p).

(* the texts a name can have: characters other than . / [ ] ! = | ( ), no white
   space around it, no @ or double quote or * in front (but * itself), and no function
   name in front (but a function name itself, where [fn] allows it) *)
Definition special (c : N) : Prop := In c (L "./[]!=|()").
Definition starts (s p : str) : Prop := exists r, s = p ++ r.
Definition keyword (s : str) : Prop := s = L "text" \/ s = L "value" \/ s = L "referent" \/ s = L "referrer".
Section Valid.
Context {U : Unicode}.
Definition valid_name (fn : bool) (s : str) : Prop :=
  s = L "*" \/ (fn = true /\ keyword s) \/
  (s <> [] /\ (forall c, In c s -> ~ special c) /\ strip s = s
   /\ (forall k, keyword k -> ~ starts s k)
   /\ ~ starts s (L "@") /\ ~ starts s (L "*") /\ ~ starts s (L """")).
(* the text of a string literal without escapes *)
Definition plain (s : str) : Prop := ~ In 34%N s /\ ~ In 92%N s.

Definition is_group (h : head) : bool := match h with HGroup _ _ => true | _ => false end.

(* paths that the evaluator reads as written.  [g]: inside a group, where a
   group may only be the first step; [np]: inside a predicate, where there are no
   predicates.  A relative path that begins with a group is only that group. *)
Fixpoint wf_head (g np first : bool) (h : head) : Prop :=
  match h with
  | HChild n => valid_name false n
  | HDesc n | HAttr n => valid_name true n
  | HUp | HSelf => True
  | HCall f a => keyword f /\ match a with Some s => plain s | None => True end
  | HGroup p ps =>
    (g = true -> first = true) /\ wf_path true np p
    /\ (fix all (ps : list path) : Prop := match ps with [] => True | q :: ps' => wf_path true np q /\ all ps' end) ps
  end
with wf_path (g np : bool) (p : path) : Prop :=
  match p with
  | Path a ss =>
    ss <> []
    /\ (a = false -> match ss with
                     | (h, ps) :: ss' => is_desc h = false /\ (is_group h = true -> ps = [] /\ ss' = [])
                     | [] => True
                     end)
    /\ (fix go (first : bool) (ss : list (head * list pred)) : Prop :=
          match ss with
          | [] => True
          | (h, ps) :: ss' =>
            wf_head g np first h
            /\ (np = true -> ps = [])
            /\ (fix all (ps : list pred) : Prop := match ps with [] => True | q :: ps' => wf_pred q /\ all ps' end) ps
            /\ go false ss'
          end) true ss
  end
with wf_pred (q : pred) : Prop :=
  match q with Pred sub test => wf_path false true sub /\ match test with Some (_, lit) => plain lit | None => True end end.

(* a path that can be written on its own *)
Definition wf (p : path) : Prop := wf_path false false p.
End Valid.

(* p followed by further steps *)
Definition steps_of (p : path) : list (head * list pred) := match p with Path _ ss => ss end.
Definition extend (p : path) (ss : list (head * list pred)) : path :=
  match p with Path a ss0 => Path a (ss0 ++ ss) end.
Definition relative (p : path) : Prop := match p with Path a _ => a = false end.

(* ---------- document order ---------- *)

(* the children of an object: its metadata, then its members *)
Definition kid_objs (o : obj) : list obj :=
  match o with
  | PCorpus c => map PMetadata (c_md c) ++ map PIgt (c_igts c)
  | PIgt g => map PMetadata (g_md g) ++ map PTier (g_tiers g)
  | PTier t => map PMetadata (t_md t) ++ map PItem (t_items t)
  | PItem _ => []
  | PMetadata m => map PMeta (md_metas m)
  | PMeta m => map PChild (me_kids m)
  | PChild (MChild _ _ _ k) => map PChild k
  end.
Definition kid (n : pnode) (i : nat) : option pnode :=
  option_map (fun o => {| n_obj := o; n_up := n_obj n :: n_up n |}) (nth_error (kid_objs (n_obj n)) i).
(* the descendant at a position; [] is the object itself *)
Fixpoint node_at (n : pnode) (pos : list nat) : option pnode :=
  match pos with
  | [] => Some n
  | i :: pos' => match kid n i with Some m => node_at m pos' | None => None end
  end.
(* document order: an object comes before its descendants, a child and its
   descendants before the later children *)
Inductive before : list nat -> list nat -> Prop :=
| before_self i p : before [] (i :: p)
| before_less i j p q : i < j -> before (i :: p) (j :: q)
| before_same i p q : before p q -> before (i :: p) (i :: q).
(* the element name of an object *)
Definition element_name (o : obj) : str :=
  match o with
  | PCorpus _ => L "xigtcorpus" | PIgt _ => L "igt" | PTier _ => L "tier" | PItem _ => L "item"
  | PMetadata _ => L "metadata" | PMeta _ => L "meta" | PChild (MChild n _ _ _) => n
  end.
(* the object and descendants of [n] at the positions with [P]: all and only
   these, in document order, each once *)
Definition lists_exactly (n : pnode) (P : list nat -> obj -> Prop) (l : list pval) : Prop :=
  exists ps : list (list nat),
    StronglySorted before ps
    /\ (forall p, In p ps <-> exists m, node_at n p = Some m /\ P p (n_obj m))
    /\ Forall2 (fun p v => exists m, node_at n p = Some m /\ v = VNode m) ps l.

(* the children that a name, or a prefix and a name, select.  A prefix stands for
   its namespace in [m] or for itself; for metadata it always stands for itself,
   and * takes metadata of any namespace *)
Definition named (name : str) (o : obj) : Prop := name = L "*" \/ element_name o = name.
Definition resolve (m : str -> option str) (p : str) : str := match m p with Some uri => uri | None => p end.
Definition prefixed (m : str -> option str) (p name : str) (o : obj) : Prop :=
  match o with
  | PMetadata md => name = L "*" \/ (name = L "metadata" /\ a_ns (md_attrs md) = Some p)
  | _ => named name o /\ a_ns (attrs_of o) = Some (resolve m p)
  end.

(* the elements of a list whose mark is true *)
Definition kept (l : list pval) (marks : list bool) : list pval := map fst (filter snd (combine l marks)).
(* a relative path that is a group *)
Definition lone_group (p : path) : bool :=
  match p with Path false [(HGroup _ _, [])] => true | _ => false end.

(* ---------- the tokenizer ---------- *)

Section Lost.
Context {U : Unicode}.
(* the text without white space *)
Definition squeeze (s : str) : str := filter (fun c => negb (is_space c)) s.
Definition no_bang (s : str) : str := filter (fun c => negb (N.eqb c (Ch "!"))) s.

(* tokens written with white space before, between and behind them: none before
   @, nor before a literal with special characters *)
Definition blank (g : str) : Prop := Forall (fun c => is_space c = true) g.
Definition may_gap (t : str) : Prop := t <> L "@" /\ (starts t (L """") -> forall c, In c t -> ~ special c).
Inductive spaced : list str -> str -> Prop :=
| sp_end g : blank g -> spaced [] g
| sp_tok g t ts s : blank g -> (g = [] \/ may_gap t) -> spaced ts s -> spaced (t :: ts) (g ++ t ++ s).
End Lost.
