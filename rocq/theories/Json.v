(* Model of xigt/codecs/xigtjson.py.  Definitions only.  Objects are the trees
   of Model.v, the values those of json (strings, lists, dicts with string
   keys); for texts see JsonText.v. *)
From Verif Require Import PyStr Ref Model XmlStd Xml.

Inductive json := JStr (s : str) | JArr (l : list json) | JObj (d : dict json).

(* ---------- encoding ---------- *)

(* obj[k] = v on a new key, or nothing *)
Definition fld (k : str) (o : option json) : dict json := match o with Some v => [(k, v)] | None => [] end.
(* if x: obj[k] = x *)
Definition truthy (o : option str) : option json := match o with Some (c :: s) => Some (JStr (c :: s)) | _ => None end.
Definition jdict (d : dict str) : json := JObj (map (fun kv => (fst kv, JStr (snd kv))) d).
Definition if_any (d : dict str) : option json := match d with [] => None | _ => Some (jdict d) end.

(* the loop over the attributes, lines 192-200 *)
Fixpoint json_attrs (inv : dict str) (acc : dict str) (l : dict str) : res (dict str) :=
  match l with
  | [] => Ok acc
  | (k, v) :: l =>
    do k' <- match k with
             | c :: r =>
               if N.eqb c (Ch "{") then
                 match split1 (Ch "}") r with
                 | None => Err ValueError
                 | Some (uri, key) => Ok (match dget inv uri with Some pre => pre ++ L ":" ++ key | None => k end)
                 end
               else Ok k
             | [] => Ok k
             end;
    json_attrs inv (dset acc k' v) l
  end.
(* the declarations that are new, line 186 (the order of the set is not defined;
   it is not observable, only lookups by prefix follow) *)
Definition new_ns (act ctx : dict str) : dict str :=
  filter (fun kv => negb (opt_eqb str_eqb (dget ctx (fst kv)) (Some (snd kv)))) act.
(* _make_obj, lines 180-204: the object and the active map; inv_nsmap is the
   reverse of the latter *)
Definition make_obj (a : attrs) (inh ctx : dict str) : res (dict json * dict str) :=
  let act := dupdate ctx (eff a inh) in
  do at_ <- json_attrs (revmap act) [] (a_dict a);
  Ok (fld ID (truthy (a_id a)) ++ fld TYPE (truthy (a_type a))
      ++ fld (L "attributes") (if_any at_)
      ++ fld (L "namespace") (truthy (a_ns a)) ++ fld (L "namespaces") (if_any (new_ns act ctx)), act).

(* obj[k] = [...] if there are any / in any case *)
Definition if_list (l : list json) : option json := match l with [] => None | _ => Some (JArr l) end.

(* encode_metachild, lines 225-235; [inh] is the nsmap of the parent *)
Fixpoint enc_child (inh ctx : dict str) (m : mchild) : res json :=
  match m with
  | MChild n a t kids =>
    let nm := eff a inh in
    do (obj, act) <- make_obj a inh ctx;
    let named :=
      match a_ns a with
      | Some (c :: u) =>
        match dget (revmap act) (c :: u) with
        | Some pre => ddel obj (L "namespace") ++ fld (L "name") (Some (JStr (pre ++ L ":" ++ n)))
        | None => obj ++ fld (L "name") (Some (JStr n))
        end
      | _ => obj ++ fld (L "name") (Some (JStr n))
      end in
    do ks <- traverse (enc_child nm act) kids;
    Ok (JObj (named ++ fld (L "text") (option_map JStr t) ++ fld (L "children") (if_list ks)))
  end.
(* encode_meta, lines 218-223 *)
Definition enc_meta (inh ctx : dict str) (m : meta) : res json :=
  do (obj, act) <- make_obj (me_attrs m) inh ctx;
  do ks <- traverse (enc_child (eff (me_attrs m) inh) act) (me_kids m);
  Ok (JObj (obj ++ fld (L "text") (option_map JStr (me_text m)) ++ fld (L "children") (if_list ks))).
(* encode_metadata, lines 213-216 *)
Definition enc_metadata (inh ctx : dict str) (m : metadata) : res json :=
  do (obj, act) <- make_obj (md_attrs m) inh ctx;
  do ms <- traverse (enc_meta (eff (md_attrs m) inh) act) (md_metas m);
  Ok (JObj (obj ++ fld (L "metas") (Some (JArr ms)))).
(* encode_item, lines 251-254 *)
Definition enc_item (inh ctx : dict str) (i : item) : res json :=
  do (obj, _) <- make_obj (it_attrs i) inh ctx;
  Ok (JObj (obj ++ fld (L "text") (truthy (it_text i)))).
(* encode_tier, lines 244-249 *)
Definition enc_tier (inh ctx : dict str) (t : tier) : res json :=
  do (obj, act) <- make_obj (t_attrs t) inh ctx;
  do ms <- traverse (enc_metadata (eff (t_attrs t) inh) act) (t_md t);
  do ks <- traverse (enc_item (eff (t_attrs t) inh) act) (t_items t);
  Ok (JObj (obj ++ fld (L "metadata") (if_list ms) ++ fld (L "items") (Some (JArr ks)))).
(* encode_igt, lines 237-242 *)
Definition enc_igt (inh ctx : dict str) (g : igt) : res json :=
  do (obj, act) <- make_obj (g_attrs g) inh ctx;
  do ms <- traverse (enc_metadata (eff (g_attrs g) inh) act) (g_md g);
  do ks <- traverse (enc_tier (eff (g_attrs g) inh) act) (g_tiers g);
  Ok (JObj (obj ++ fld (L "metadata") (if_list ms) ++ fld (L "tiers") (Some (JArr ks)))).
(* encode, lines 206-211 *)
Definition json_encode (c : corpus) : res json :=
  do (obj, act) <- make_obj (c_attrs c) [] [];
  do ms <- traverse (enc_metadata (eff (c_attrs c) []) act) (c_md c);
  do ks <- traverse (enc_igt (eff (c_attrs c) []) act) (c_igts c);
  Ok (JObj (obj ++ fld (L "metadata") (if_list ms) ++ fld (L "igts") (Some (JArr ks)))).

(* ---------- decoding ---------- *)

(* obj.get(k); a value of another kind than expected is an error of some sort
   (simplification: TypeError, in every case) *)
Definition get_str (k : str) (d : dict json) : res (option str) :=
  match dget d k with Some (JStr s) => Ok (Some s) | None => Ok None | _ => Err TypeError end.
Definition get_dict (k : str) (d : dict json) : res (option (dict str)) :=
  match dget d k with
  | None => Ok None
  | Some (JObj e) =>
    do l <- traverse (fun kv => match snd kv with JStr s => Ok (fst kv, s) | _ => Err TypeError end) e; Ok (Some l)
  | _ => Err TypeError
  end.
(* [f(x) for x in obj.get(k, [])] *)
Definition get_list {A} (f : json -> res A) (k : str) : dict json -> res (list A) :=
  fix find (d : dict json) : res (list A) :=
    match d with
    | [] => Ok []
    | (k', v) :: d => if str_eqb k k' then match v with JArr l => traverse f l | _ => Err TypeError end else find d
    end.
Definition as_obj (j : json) : res (dict json) := match j with JObj d => Ok d | _ => Err AttributeError end.

(* active_namespaces, lines 170-173 *)
Definition active_namespaces (d : dict json) (nsmap : dict str) : res (dict str) :=
  do m <- get_dict (L "namespaces") d; Ok (dupdate nsmap (match m with Some m => m | None => [] end)).

Section Json.
Context {U : Unicode}.

(* the arguments common to all classes *)
Definition dec_attrs (d : dict json) (id type ns : option str) : res attrs :=
  do m <- get_dict (L "namespaces") d;
  do at_ <- get_dict (L "attributes") d;
  let a := {| a_id := id; a_type := type; a_dict := match at_ with Some x => x | None => [] end; a_ns := ns; a_nsmap := m |} in
  match id with
  | Some i => if id_accepted i then Ok a else Err ValueError
  | None => Ok a
  end.
Definition dec_common (d : dict json) : res attrs :=
  do i <- get_str ID d; do t <- get_str TYPE d; do ns <- get_str (L "namespace") d; dec_attrs d i t ns.

(* decode_metachild, lines 146-167 *)
Fixpoint dec_child (nsmap : dict str) (j : json) : res mchild :=
  match j with
  | JObj d =>
    do nm <- active_namespaces d nsmap;
    do nmo <- get_str (L "name") d;
    do name <- match nmo with Some n => Ok n | None => Err KeyError end;
    do (n, ns) <- match split1 (Ch ":") name with
                  | Some (p, n) => Ok (n, Some (match dget nm p with Some u => u | None => p end))
                  | None =>
                    do ns <- get_str (L "namespace") d;
                    Ok (name, match ns with Some p => match dget nm p with Some u => Some u | None => ns end | None => None end)
                  end;
    do a <- dec_attrs d None None ns;
    do t <- get_str (L "text") d;
    do ks <- get_list (dec_child nm) (L "children") d;
    if name_accepted n then Ok (MChild n a t ks) else Err ValueError
  | _ => Err AttributeError
  end.
(* decode_meta, lines 128-143 *)
Definition dec_meta (nsmap : dict str) (j : json) : res meta :=
  do d <- as_obj j;
  do nm <- active_namespaces d nsmap;
  do a <- dec_common d;
  do t <- get_str (L "text") d;
  do ks <- get_list (dec_child nm) (L "children") d;
  Ok {| me_attrs := a; me_text := t; me_kids := ks |}.
(* decode_metadata, lines 114-125 *)
Definition dec_metadata (nsmap : dict str) (j : json) : res metadata :=
  do d <- as_obj j;
  do nm <- active_namespaces d nsmap;
  do a <- dec_common d;
  do ms <- get_list (dec_meta nm) (L "metas") d;
  do ms <- new_container (fun m => a_id (me_attrs m)) ms;
  Ok {| md_attrs := a; md_metas := ms |}.
Definition dec_metadatas (nm : dict str) (d : dict json) : res (list metadata) :=
  do ms <- get_list (dec_metadata nm) (L "metadata") d;
  new_container (fun m => a_id (md_attrs m)) ms.
(* decode_item, lines 101-111 *)
Definition dec_item (nsmap : dict str) (j : json) : res item :=
  do d <- as_obj j;
  do nm <- active_namespaces d nsmap;
  do a <- dec_common d;
  do t <- get_str (L "text") d;
  Ok {| it_attrs := a; it_text := t |}.
(* decode_tier, lines 85-98 *)
Definition dec_tier (nsmap : dict str) (j : json) : res tier :=
  do d <- as_obj j;
  do nm <- active_namespaces d nsmap;
  do ms <- dec_metadatas nm d;
  do ks <- get_list (dec_item nm) (L "items") d;
  do a <- dec_common d;
  do ks <- new_container (fun i => a_id (it_attrs i)) ks;
  Ok {| t_attrs := a; t_md := ms; t_items := ks |}.
(* decode_igt, lines 69-82 *)
Definition dec_igt (nsmap : dict str) (j : json) : res igt :=
  do d <- as_obj j;
  do nm <- active_namespaces d nsmap;
  do ms <- dec_metadatas nm d;
  do ks <- get_list (dec_tier nm) (L "tiers") d;
  do a <- dec_common d;
  do ks <- new_container (fun t => a_id (t_attrs t)) ks;
  Ok {| g_attrs := a; g_md := ms; g_tiers := ks |}.
(* decode, lines 54-66, mode full: the type is not read *)
Definition json_decode (j : json) : res corpus :=
  do d <- as_obj j;
  do nm <- active_namespaces d [];
  do ms <- dec_metadatas nm d;
  do ks <- get_list (dec_igt nm) (L "igts") d;
  do i <- get_str ID d;
  do ns <- get_str (L "namespace") d;
  do a <- dec_attrs d i None ns;
  do ks <- new_container (fun g => a_id (g_attrs g)) ks;
  Ok {| c_attrs := a; c_md := ms; c_igts := ks |}.

End Json.
