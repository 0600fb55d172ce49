(* Model of xigt/xigtpath.py: find, findall, iterfind and the tokenizer.
   Definitions only.

   An object is given with its ancestors, as in Attr.v.  A generator is the list
   of the values it yields and the exception that ends it, if any.  Every
   generator of the module pulls its steps from the shared deque before it pulls
   an object, and generator expressions do not touch the deque; so evaluation is
   modelled as a function that takes the steps and returns the generator with
   the steps that are left.  [_disjunction] is no generator: it pulls all its
   objects at once and raises before anything is yielded.

   Simplifications: corpora are in mode FULL; [ix g] are the cached indices of
   the Igt g (model.py:151-189); [vfuel] bounds the recursion of Item.value. *)
From Verif Require Import PyStr PySort Regex Ref Model Attr Value Index.

(* an object and its ancestors, the nearest first *)
Record pnode := { n_obj : obj; n_up : list obj }.
(* what a path can yield: an object, a string, None, or the list of metas that
   Metadata.text gives (metadata.py:121-124) *)
Inductive pval := VNode (n : pnode) | VStr (s : str) | VNone | VList (l : list pnode).

Definition stream := (list pval * option exn)%type.
Definition of_opt (o : option str) : pval := match o with Some s => VStr s | None => VNone end.
Definition of_res (r : res (list pval)) : stream := match r with Ok l => (l, None) | Err e => ([], Some e) end.

(* (y for x in s for y in f(x)) *)
Fixpoint sbind_ (f : pval -> stream) (l : list pval) (e : option exn) : stream :=
  match l with
  | [] => ([], e)
  | x :: l' =>
    match f x with
    | (ys, Some e') => (ys, Some e')
    | (ys, None) => let '(zs, e') := sbind_ f l' e in (ys ++ zs, e')
    end
  end.
Definition sbind (f : pval -> stream) (s : stream) : stream := sbind_ f (fst s) (snd s).
(* filter(p, s) *)
Fixpoint sfilter_ (p : pval -> res bool) (l : list pval) (e : option exn) : stream :=
  match l with
  | [] => ([], e)
  | x :: l' =>
    match p x with
    | Err e' => ([], Some e')
    | Ok b => let '(zs, e') := sfilter_ p l' e in (if b then x :: zs else zs, e')
    end
  end.
Definition sfilter (p : pval -> res bool) (s : stream) : stream := sfilter_ p (fst s) (snd s).

(* ---------- tokens, lines 32-48 ---------- *)

(* [^.\/\[\]!=|()] *)
Definition name_char (c : N) : bool :=
  negb (existsb (N.eqb c) (L "./[]!=|()")).
(* the four function names of line 43 *)
Definition functions : list str := [L "text"; L "value"; L "referent"; L "referrer"].
(* double-quoted strings, line 33 *)
Definition string_re : re :=
  RSeq (RChr (N.eqb 34))
    (RSeq (RStar true (RAlt (RSeq (RChr (N.eqb 92)) (RChr (fun c => negb (N.eqb c 10))))
                            (RChr (fun c => negb (N.eqb c 92 || N.eqb c 34)))))
          (RChr (N.eqb 34))).
Definition ralts (l : list re) (last : re) : re := fold_right RAlt last l.
Definition xp_tokenizer_re : re :=
  ralts
    [ string_re;
      RSeq (RLit "/") (ROpt (RLit "/"));
      RSeq (RLit ".") (ROpt (RLit "."));
      RLit "@"; RLit "["; RLit "]"; RLit "("; RLit ")"; RLit "|";
      RSeq (RLit "!") (RLit "="); RLit "=";
      ralts [RStr (L "text"); RStr (L "value"); RStr (L "referent")] (RStr (L "referrer"));
      RLit "*" ]
    (RPlus true (RChr name_char)).

Section Path.
Context {U : Unicode}.
Variable ix : igt -> index.
Variable vfuel : nat.

Definition nonblank (s : str) : bool := match s with [] => false | _ => true end.
(* tokenize, lines 47-48 *)
Definition tokenize (path : str) : list str :=
  filter nonblank (map strip (findall0 xp_tokenizer_re path)).

(* s.strip of double quotes, lines 145 and 257 *)
Fixpoint lstrip_q (s : str) : str :=
  match s with [] => [] | c :: s' => if N.eqb c 34 then lstrip_q s' else s end.
Definition strip_q (s : str) : str := rev (lstrip_q (rev (lstrip_q s))).

(* ---------- objects ---------- *)

Definition child_of (n : pnode) (o : obj) : pnode := {| n_obj := o; n_up := n_obj n :: n_up n |}.
Definition chain_of (n : pnode) : list attrs := map attrs_of (n_obj n :: n_up n).
(* obj.metadata; only XigtCorpus, Igt and Tier have it (metadata.py:18-40) *)
Definition metadata_list (o : obj) : list obj :=
  match o with
  | PTier t => map PMetadata (t_md t) | PIgt g => map PMetadata (g_md g) | PCorpus c => map PMetadata (c_md c)
  | _ => []
  end.
Definition member_list (o : obj) : list obj := match members_of o with Some l => l | None => [] end.
(* getattr(x, k, None) for the keys namespace and name (MetaChild only) *)
Definition child_getattr (o : obj) (k : str) : option str :=
  if str_eqb k NAMESPACE then a_ns (attrs_of o)
  else if str_eqb k (L "name") then match o with PChild (MChild n _ _ _) => Some n | _ => None end
  else None.
(* obj.select with the keyword arguments kwargs on a container of the tree *)
Definition select_members (n : pnode) (kwargs : dict (option str)) : list pval :=
  match select child_getattr (Some (nsmap_of (chain_of n))) (member_list (n_obj n)) kwargs with
  | Ok l => map (fun o => VNode (child_of n o)) l
  | Err _ => []      (* unreachable, the nsmap is given *)
  end.

(* namespace, name = name.split(':', 1) if there is a colon *)
Definition split_ns (name : str) : option str * str :=
  match split1 COLON name with Some (p, s) => (Some p, s) | None => (None, name) end.
Definition ns_kwargs (ns : option str) : dict (option str) :=
  match ns with Some p => [(NAMESPACE, Some p)] | None => [] end.

(* name == 'igt' and hasattr(obj, 'igts') or ..., lines 167-170 *)
Definition member_name (o : obj) : option str :=
  match o with
  | PCorpus _ => Some (L "igt") | PIgt _ => Some (L "tier") | PTier _ => Some (L "item") | PMetadata _ => Some (L "meta")
  | _ => None
  end.
(* _find_child, lines 154-188 *)
Definition find_child (v : pval) (name : str) : stream :=
  let '(ns, nm) := split_ns name in
  let star := str_eqb nm (L "*") in
  match v with
  | VNone => ([], None)
  | VStr _ | VList _ => if star then ([], Some AttributeError) else ([], None)
  | VNode n =>
    let mds := map (child_of n) (metadata_list (n_obj n)) in
    match n_obj n with
    | PItem _ => ([], None)
    | o =>
      if star then (map VNode mds ++ select_members n (ns_kwargs ns), None)
      else if opt_eqb str_eqb (member_name o) (Some nm) then (select_members n (ns_kwargs ns), None)
      else if str_eqb nm (L "metadata") && match o with PTier _ | PIgt _ | PCorpus _ => true | _ => false end
      then (map VNode (match ns with
                       | Some p => filter (fun c => opt_eqb str_eqb (a_ns (attrs_of (n_obj c))) (Some p)) mds
                       | None => mds
                       end), None)
      else match o with
           | PMeta _ | PChild _ => (select_members n (ns_kwargs ns ++ [(L "name", Some nm)]), None)
           | _ => ([], None)
           end
    end
  end.

(* _find_attr, lines 190-209.  Objects have a type and an id; only a MetaChild
   has a name; strings, None and lists have none of them. *)
Definition pseudo_attr (v : pval) (attr : str) : option str :=
  match v with
  | VNode n =>
    if str_eqb attr (L "type") then a_type (attrs_of (n_obj n))
    else if str_eqb attr (L "id") then a_id (attrs_of (n_obj n))
    else child_getattr (n_obj n) attr
  | _ => None
  end.
Definition is_pseudo (attr : str) : bool := existsb (str_eqb attr) [L "type"; L "id"; L "name"].
Definition find_attr (v : pval) (attr : str) : stream :=
  if is_pseudo attr then (match pseudo_attr v attr with Some s => [VStr s] | None => [] end, None)
  else
    let '(ns, a) := split_ns attr in
    match v with
    | VNode n =>
      let get k := do x <- get_attribute (chain_of n) k None false ns; Ok (of_opt x) in
      of_res (if str_eqb a (L "*") then mapM get (map fst (a_dict (attrs_of (n_obj n))))
              else do x <- get a; Ok [x])
    | _ => ([], Some AttributeError)
    end.

(* obj.name of a MetaChild, obj.__class__.__name__.lower() otherwise, lines 215-218 *)
Definition objname (v : pval) : str :=
  match v with
  | VStr _ => L "str" | VNone => L "nonetype" | VList _ => L "list"
  | VNode n =>
    match n_obj n with
    | PItem _ => L "item" | PTier _ => L "tier" | PIgt _ => L "igt" | PCorpus _ => L "xigtcorpus"
    | PMetadata _ => L "metadata" | PMeta _ => L "meta" | PChild (MChild nm _ _ _) => nm
    end
  end.
(* _find_descendant_or_self, lines 211-223.  Out of fuel = RecursionError. *)
Fixpoint descend (fuel : nat) (v : pval) (name : str) : stream :=
  match fuel with
  | 0 => ([], Some RecursionError)
  | S f =>
    let '(ns, nm) := split_ns name in
    let here : res bool :=
      match ns with
      | None => Ok (str_eqb (objname v) nm)
      | Some p => match v with
                  | VNode n => Ok (opt_eqb str_eqb (a_ns (attrs_of (n_obj n))) (Some p) && str_eqb (objname v) nm)
                  | _ => Err AttributeError
                  end
      end in
    match here with
    | Err e => ([], Some e)
    | Ok b =>
      let '(l, e) := sbind (fun c => descend f c nm) (find_child v (L "*")) in
      ((if b then [v] else []) ++ l, e)
    end
  end.
(* the height of an object's tree *)
Fixpoint height_c (c : mchild) : nat :=
  match c with MChild _ _ _ k => S (fold_right (fun c n => Nat.max (height_c c) n) 0 k) end.
Definition list_max_ {A} (f : A -> nat) (l : list A) : nat := fold_right (fun x n => Nat.max (f x) n) 0 l.
Definition height_meta (m : meta) : nat := S (list_max_ height_c (me_kids m)).
Definition height_md (m : metadata) : nat := S (list_max_ height_meta (md_metas m)).
Definition height_tier (t : tier) : nat := 2 + list_max_ height_md (t_md t).
Definition height_igt (g : igt) : nat := S (Nat.max (list_max_ height_md (g_md g)) (list_max_ height_tier (g_tiers g))).
Definition height_corpus (c : corpus) : nat := S (Nat.max (list_max_ height_md (c_md c)) (list_max_ height_igt (c_igts c))).
Definition height (v : pval) : nat :=
  match v with
  | VNode n =>
    match n_obj n with
    | PItem _ => 1 | PTier t => height_tier t | PIgt g => height_igt g | PCorpus c => height_corpus c
    | PMetadata m => height_md m | PMeta m => height_meta m | PChild c => height_c c
    end
  | _ => 1
  end.
(* enough fuel: the tree is finite *)
Definition find_descendant_or_self (v : pval) (name : str) : stream := descend (S (height v)) v name.

(* obj._parent.  XigtCorpus has none and Metadata has none before it is put
   into a container (model.py:42-86, metadata.py:70-92); the other classes
   have None then. *)
Definition parent (v : pval) : stream :=
  match v with
  | VNode n =>
    match n_up n, n_obj n with
    | o :: up, _ => ([VNode {| n_obj := o; n_up := up |}], None)
    | [], (PCorpus _ | PMetadata _) => ([], Some AttributeError)
    | [], _ => ([VNone], None)
    end
  | _ => ([], Some AttributeError)
  end.
(* _get_corpus, lines 266-269; climbing beyond the root is an AttributeError *)
Fixpoint climb (o : obj) (up : list obj) : res pval :=
  match o with
  | PCorpus _ => Ok (VNode {| n_obj := o; n_up := up |})
  | _ => match up with o' :: up' => climb o' up' | [] => Err AttributeError end
  end.
Definition get_corpus (v : pval) : res pval :=
  match v with VNode n => climb (n_obj n) (n_up n) | _ => Err AttributeError end.

(* ---------- functions, lines 135-152, 225-243 ---------- *)

(* the igt of an object: obj.igt if it has one, otherwise obj.  An igt with its
   ancestors; None: not an Igt, so that get_any is an AttributeError. *)
Definition igt_of (n : pnode) : option (igt * list obj) :=
  match n_obj n, n_up n with
  | PIgt g, up => Some (g, up)
  | PTier _, PIgt g :: up => Some (g, up)
  | PItem _, PTier _ :: PIgt g :: up => Some (g, up)
  | _, _ => None
  end.
Definition of_index (g : igt) (up : list obj) (o : option node) : pval :=
  match o with
  | None => VNone
  | Some (NTier t) => VNode {| n_obj := PTier t; n_up := PIgt g :: up |}
  | Some (NItem t i) => VNode {| n_obj := PItem i; n_up := PTier t :: PIgt g :: up |}
  end.
(* _find_referent, _find_referrer.  An object without id is looked up with
   int(None): TypeError (mixins.py:50-60). *)
Definition find_refs (dir : igt -> index -> str -> option (list str) -> res refmap) (v : pval)
    (refattrs : option (list str)) : stream :=
  match v with
  | VNode n =>
    match igt_of n with
    | None => ([], Some AttributeError)
    | Some (g, up) =>
      of_res (match a_id (attrs_of (n_obj n)) with
              | None => Err TypeError
              | Some k =>
                do refd <- dir g (ix g) k refattrs;
                Ok (flat_map (fun kv => map (fun i => of_index g up (get_any g (ix g) i)) (snd kv))
                      (ssort (fun a b => str_ltb (fst a) (fst b)) refd))
              end)
    end
  | _ => ([], Some AttributeError)
  end.
Definition text_of_val (v : pval) : res pval :=
  match v with
  | VNode n =>
    match n_obj n with
    | PItem i => Ok (of_opt (it_text i))
    | PMeta m => Ok (of_opt (me_text m))
    | PChild (MChild _ _ t _) => Ok (of_opt t)
    | PMetadata m => Ok (VList (map (child_of n) (map PMeta (md_metas m))))
    | _ => Err AttributeError
    end
  | _ => Err AttributeError
  end.
Definition value_of_val (v : pval) : res pval :=
  match v with
  | VNode n =>
    match n_obj n with
    | PItem i =>
      let t := match n_up n with PTier t :: _ => Some t | _ => None end in
      let g := match n_up n with PTier _ :: PIgt g :: _ => Some g | _ => None end in
      do x <- value vfuel g t i value_refattrs; Ok (of_opt x)
    | _ => Err AttributeError
    end
  | _ => Err AttributeError
  end.
(* refattrs, lines 143-145 *)
Definition refattr_args (args : list str) : option (list str) :=
  match args with
  | [] => None
  | _ => Some (map strip_q (filter (fun a => negb (str_eqb a (L ","))) args))
  end.
Definition function (v : pval) (f : str) (args : list str) : stream :=
  if str_eqb f (L "text") then of_res (do x <- text_of_val v; Ok [x])
  else if str_eqb f (L "value") then of_res (do x <- value_of_val v; Ok [x])
  else if str_eqb f (L "referent") then find_refs referents v (refattr_args args)
  else find_refs referrers v (refattr_args args).

(* ---------- predicates, lines 245-264 ---------- *)

Inductive ptest := TExists (sub : str) | TEq (sub val : str) | TNe (sub val : str).
(* the tokens up to the first of ] = !=; IndexError if there is none *)
Fixpoint take_sub (steps : list str) : option (list str * list str) :=
  match steps with
  | [] => None
  | t :: r => if existsb (str_eqb t) [L "]"; L "="; L "!="] then Some ([], steps)
              else option_map (fun p => (t :: fst p, snd p)) (take_sub r)
  end.
(* _make_predicate_test after the '[' *)
Definition make_predicate (steps : list str) : res (ptest * list str) :=
  match take_sub steps with
  | None => Err IndexError
  | Some (sub, rest) =>
    let sub := concat sub in
    match rest with
    | [] => Err IndexError
    | t :: rest =>
      if str_eqb t (L "]") then Ok (TExists sub, rest)
      else match rest with
           | v :: _ :: rest => Ok ((if str_eqb t (L "=") then TEq else TNe) sub (strip_q v), rest)
           | _ => Err IndexError
           end
    end
  end.
(* v == val for a string val: objects, None and lists are equal to no string *)
Definition is_str (val : str) (v : pval) : bool := match v with VStr s => str_eqb s val | _ => false end.
(* the tests; any(True) and any(False) are TypeErrors, line 253 *)
Definition run_test (fa : pval -> str -> res (list pval)) (t : ptest) (v : pval) : res bool :=
  match t with
  | TExists sub => do _ <- fa v sub; Err TypeError
  | TEq sub val => do l <- fa v sub; Ok (existsb (is_str val) l)
  | TNe sub val => do l <- fa v sub; Ok (forallb (fun x => negb (is_str val x)) l)
  end.

(* ---------- evaluation ---------- *)

(* the arguments of a function: all tokens up to the next ')', lines 112-115 *)
Fixpoint take_args (steps : list str) : option (list str * list str) :=
  match steps with
  | [] => None
  | t :: r => if str_eqb t (L ")") then Some ([], r)
              else option_map (fun p => (t :: fst p, snd p)) (take_args r)
  end.
(* while steps and steps[0] == '[', lines 121-123; [n] bounds the number of predicates *)
Fixpoint predicates (n : nat) (fa : pval -> str -> res (list pval)) (s : stream) (steps : list str)
    : stream * list str :=
  match n with
  | 0 => (s, steps)
  | S n' =>
    match steps with
    | t :: r =>
      if str_eqb t (L "[") then
        match make_predicate r with
        | Err e => (([], Some e), [])
        | Ok (test, r') => predicates n' fa (sfilter (run_test fa test) s) r'
        end
      else (s, steps)
    | [] => (s, steps)
    end
  end.

(* _disjunction, lines 80-101.  [alts v steps]: the results of the alternatives
   for the context v, and the steps after the closing parenthesis.  Only the
   first object advances the deque; if there is none, it stays. *)
Fixpoint disj_rest (alts : pval -> list str -> res (list pval * list str)) (l : list pval) (steps : list str)
    : res (list pval) :=
  match l with
  | [] => Ok []
  | v :: l' => do r <- alts v steps; do r' <- disj_rest alts l' steps; Ok (fst r ++ r')
  end.
Definition disjunction (alts : pval -> list str -> res (list pval * list str)) (s : stream) (steps : list str)
    : res (list pval * list str) :=
  let ending {A} (r : res A) : res A := match snd s with Some e => do _ <- r; Err e | None => r end in
  match fst s with
  | [] => ending (Ok ([], steps))
  | v :: l => do r <- alts v steps; do r' <- ending (disj_rest alts l steps); Ok (fst r ++ r', snd r)
  end.
Definition is_slash (t : str) : bool := str_eqb t (L "/") || str_eqb t (L "//").

(* _expr, lines 69-78; the alternatives of a _disjunction; _step, lines 103-133;
   iterfind, lines 56-67.  Running out of fuel is RecursionError; fuel_of is
   always enough (PathProofs.v). *)
Fixpoint expr (fuel : nat) (v : pval) (steps : list str) {struct fuel} : stream * list str :=
  match fuel with
  | 0 => (([], Some RecursionError), [])
  | S f =>
    match steps with
    | [] => (([], Some IndexError), [])
    | t :: r =>
      if str_eqb t (L "(") then
        match disjunction (alternatives f) ([v], None) r with
        | Ok (l, r') => ((l, None), r')
        | Err e => (([], Some e), [])
        end
      else if is_slash t then
        match get_corpus v with
        | Err e => (([], Some e), [])
        | Ok c => step f ([c], None) (if str_eqb t (L "/") then r else steps)
        end
      else step f ([v], None) steps
    end
  end
with alternatives (fuel : nat) (v : pval) (steps : list str) {struct fuel} : res (list pval * list str) :=
  match fuel with
  | 0 => Err RecursionError
  | S f =>
    match expr f v steps with
    | ((_, Some e), _) => Err e
    | ((l, None), t :: r) =>
      if str_eqb t (L "|") then do x <- alternatives f v r; Ok (l ++ fst x, snd x)
      else if str_eqb t (L ")") then Ok (l, r)
      else Err XigtPathError
    | ((_, None), []) => Err IndexError
    end
  end
with step (fuel : nat) (s : stream) (steps : list str) {struct fuel} : stream * list str :=
  match fuel with
  | 0 => (([], Some RecursionError), [])
  | S f =>
    match steps with
    | [] => (s, [])
    | t :: r =>
      let next (g : str -> stream) : res (stream * list str) :=
        match r with n :: r' => Ok (g n, r') | [] => Err IndexError end in
      let head : res (stream * list str) :=
        if str_eqb t (L "(") then
          do x <- disjunction (alternatives f) s r; Ok ((fst x, None), snd x)
        else if str_eqb t (L "//") then next (fun n => sbind (fun v => find_descendant_or_self v n) s)
        else if str_eqb t (L "@") then next (fun a => sbind (fun v => find_attr v a) s)
        else if str_eqb t (L "..") then Ok (sbind parent s, r)
        else if str_eqb t (L ".") then Ok (s, r)
        else if existsb (str_eqb t) functions then
          match r with
          | [] => Err IndexError
          | _ :: r' => match take_args r' with
                       | None => Err IndexError
                       | Some (args, r'') => Ok (sbind (fun v => function v t args) s, r'')
                       end
          end
        else Ok (sbind (fun v => find_child v t) s, r) in
      match head with
      | Err e => (([], Some e), [])
      | Ok (s', r') =>
        let fa v path := match iterfind f v path with (l, None) => Ok l | (_, Some e) => Err e end in
        let '(s'', r'') := predicates (length r') fa s' r' in
        match r'' with
        | t' :: r3 =>
          if is_slash t' then step f s'' (if str_eqb t' (L "/") then r3 else r'')
          else (s'', r'')
        | [] => (s'', r'')
        end
      end
    end
  end
with iterfind (fuel : nat) (v : pval) (path : str) {struct fuel} : stream :=
  match fuel with
  | 0 => ([], Some RecursionError)
  | S f =>
    if endswith (L "/") path then ([], Some XigtPathError)
    else match tokenize path with
         | [] => ([], None)
         | steps => fst (expr f v steps)
         end
  end.

Definition fuel_of (path : str) : nat := 4 * length path + 5.

(* find and findall, lines 50-54: next(..., None) and list(...) *)
Definition find (v : pval) (path : str) : res (option pval) :=
  match iterfind (fuel_of path) v path with
  | (x :: _, _) => Ok (Some x)
  | ([], None) => Ok None
  | ([], Some e) => Err e
  end.
Definition findall (v : pval) (path : str) : res (list pval) :=
  match iterfind (fuel_of path) v path with (l, None) => Ok l | (_, Some e) => Err e end.

End Path.
