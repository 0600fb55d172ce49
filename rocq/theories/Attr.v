(* Model of attribute lookup, metadata lookup, select and the reference
   arguments: xigt/mixins.py:88-95, 161-242, xigt/metadata.py:44-60.
   Definitions only.

   An object is given with its ancestors: the list of the attributes of the
   object, its _parent, the parent's _parent and so on (the last one has no
   parent).  Simplification: prefixes in an nsmap are strings, so None is never
   in it. *)
From Verif Require Import PyStr Model.

Definition LBRACE : str := L "{".
Definition COLON : char := Ch ":".

(* XigtAttributeMixin.nsmap, xigt/mixins.py:218-227 *)
Fixpoint nsmap_of (chain : list attrs) : dict str :=
  match chain with
  | [] => []
  | a :: ps => match a_nsmap a with Some m => m | None => nsmap_of ps end
  end.

(* '{%s}%s' % (uri, name) *)
Definition expand (uri name : str) : str := L "{" ++ uri ++ L "}" ++ name.

(* the rewriting of the key, xigt/mixins.py:193-199 *)
Definition rewrite_key (m : dict str) (key : str) (ns : option str) : res str :=
  let other :=
    match ns with
    | None => Ok key
    | Some n =>
      match dget m n with
      | Some uri => Ok (expand uri key)
      | None => match n with [] => Ok key | _ => Ok (expand n key) end
      end
    end in
  if startswith LBRACE key then other
  else match split1 COLON key with
       | Some (prefix, suffix) =>
         match dget m prefix with
         | Some uri => Ok (expand uri suffix)
         | None => Err KeyError
         end
       | None => other
       end.

(* XigtAttributeMixin.get_attribute, xigt/mixins.py:187-208 *)
Fixpoint get_attribute (chain : list attrs) (key : str) (default : option str) (inherit : bool) (ns : option str)
    : res (option str) :=
  match chain with
  | [] => Ok default
  | a :: ps =>
    do k <- rewrite_key (nsmap_of chain) key ns;
    match dget (a_dict a) k with
    | Some v => Ok (Some v)
    | None =>
      match ps with
      | [] => Ok default
      | _ => if inherit then get_attribute ps k default inherit ns else Ok default
      end
    end
  end.

(* XigtMetadataMixin.get_meta, xigt/metadata.py:44-60; the object's metadata and
   its ancestors'.  None: the default is returned. *)
Definition own_metas (key : option str) (conds : list (meta -> bool)) (mds : list metadata) : list meta :=
  flat_map (fun md =>
    if opt_eqb str_eqb (a_type (md_attrs md)) (Some (L "xigt-meta"))
    then filter (fun m => opt_eqb str_eqb (a_type (me_attrs m)) key && forallb (fun c => c m) conds) (md_metas md)
    else []) mds.
Fixpoint get_meta (chain : list (list metadata)) (key : option str) (conds : list (meta -> bool)) (inherit : bool)
    : option (list meta) :=
  match chain with
  | [] => None
  | mds :: ps =>
    match own_metas key conds mds with
    | [] => match ps with
            | [] => None
            | _ => if inherit then get_meta ps key conds inherit else None
            end
    | l => Some l
    end
  end.

(* XigtReferenceAttributeMixin.__init__, xigt/mixins.py:243-256 *)
Definition truthy (o : option str) : bool := match o with None | Some [] => false | _ => true end.
Definition put_attr (d : dict str) (k : str) (o : option str) : dict str :=
  match o with Some v => dset d k v | None => d end.
Definition ref_init (d : dict str) (alignment content segmentation : option str) : res (dict str) :=
  if truthy segmentation && (truthy content || truthy alignment) then Err XigtError
  else Ok (put_attr (put_attr (put_attr d ALIGNMENT alignment) CONTENT content) SEGMENTATION segmentation).

(* XigtContainerMixin.select, xigt/mixins.py:88-95.  [ga x k] is
   getattr(x, k, None), [nsmap] is self.nsmap (None: no such attribute, as for
   the containers of metadata), kwargs the criteria. *)
Definition NAMESPACE : str := L "namespace".
Definition select {A} (ga : A -> str -> option str) (nsmap : option (dict str)) (l : list A)
    (kwargs : dict (option str)) : res (list A) :=
  let run kw := filter (fun x => forallb (fun kv => opt_eqb str_eqb (ga x (fst kv)) (snd kv)) kw) l in
  match dget kwargs NAMESPACE with
  | None => Ok (run kwargs)
  | Some v =>
    match nsmap with
    | None => Err AttributeError
    | Some m =>
      match v with
      | Some p => match dget m p with
                  | Some uri => Ok (run (dset kwargs NAMESPACE (Some uri)))
                  | None => Ok (run kwargs)
                  end
      | None => Ok (run kwargs)
      end
    end
  end.

(* getattr(x, k, None) on an Item, for the attributes holding strings *)
Definition item_getattr (it : item) (k : str) : option str :=
  if str_eqb k ID then a_id (it_attrs it)
  else if str_eqb k TYPE then a_type (it_attrs it)
  else if str_eqb k NAMESPACE then a_ns (it_attrs it)
  else if str_eqb k (L "text") then it_text it
  else if str_eqb k ALIGNMENT then dget (a_dict (it_attrs it)) ALIGNMENT
  else if str_eqb k CONTENT then dget (a_dict (it_attrs it)) CONTENT
  else if str_eqb k SEGMENTATION then dget (a_dict (it_attrs it)) SEGMENTATION
  else None.
