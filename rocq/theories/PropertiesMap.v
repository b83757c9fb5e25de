(* Properties of mappings: C19 and C20 (keys), C21 (set), C22 (slicing), C23
   (objects), C60 (set_flat routing), C61 (defaults), C62 (SparseDict calls). *)
From Verif Require Import PyBase ModelUtil SpecUtil ModelScalar ModelSeq ModelMap SpecMap
  ProofMap3 ProofMap4 ProofMap5 ProofMap6 ProofMap7 ProofMap8 ProofMap9.

(* C19 *)
Theorem C19_dict_history : forall V M (cls : nat -> ecls V M) isa fields own_name minf own h self v os,
  unique_fields fields -> isa_refl isa ->
  snd (construct_map cls isa fields minf IsDict own h self v) = Ok tt ->
  let s := run_dict cls isa fields own_name minf own (fst (construct_map cls isa fields minf IsDict own h self v)) os in
  dict_shape fields s /\ m_self s = self.
Proof. exact @dict_history. Qed.
Print Assumptions C19_dict_history.
Theorem C19_dict_assign : forall V M (cls : nat -> ecls V M) isa fields own_name minf own s k a,
  NoDup (map f_name fields) -> dict_shape fields s ->
  match mget k s with
  | Some e => In k (map f_name fields)
      /\ let m := assigned cls (m_h s) (e_class (m_h s) e) (e_con (m_h s) e) a in
         only_content s (fst (dict_step cls isa fields own_name minf own s (MSetItem k a))) e (fst m)
         /\ snd (dict_step cls isa fields own_name minf own s (MSetItem k a)) = rmap (fun _ => MONone) (snd m)
  | None => ~ In k (map f_name fields) /\ dict_step cls isa fields own_name minf own s (MSetItem k a) = (s, Err TypeErr)
  end.
Proof. exact @dict_assign. Qed.
Print Assumptions C19_dict_assign.
Theorem C19_dict_refuses : forall V M (cls : nat -> ecls V M) isa fields own_name minf own s,
  let step := dict_step cls isa fields own_name minf own s in
  dict_shape fields s ->
  (forall k, step (MDelItem k) = (s, Err (if mhas k s then TypeErr else KeyErr)))
  /\ (forall k, step (MPop k) = (s, Err (if mhas k s then TypeErr else KeyErr)))
  /\ step MClear = (s, Err TypeErr) /\ step MPopItem = (s, Err TypeErr)
  /\ (forall k d, step (MSetdefault k d) = (s, Err TypeErr))
  /\ (forall k, map_may s k = true <-> In k (map f_name fields))
  /\ (forall k, mhas k s = true <-> In k (map f_name fields))
  /\ (forall k, step (MGet k) = (s, match aget name_eqb k (m_items s) with
                                    | Some e => Ok (MOElem e) | None => Err KeyErr end))
  /\ map_is_empty IsDict s = false.
Proof. exact @dict_refuses. Qed.
Print Assumptions C19_dict_refuses.
(* update() is one assignment per item, positional ones first, stopping at the
   first that raises *)
Theorem C19_update : forall V M (setitem : mapst M -> name -> arg V -> mapst M * res unit) s it kw,
  let '(s', r) := map_update setitem s [it] kw in
  match it_end it with
  | None => assigns setitem s (it_items it ++ kw) None s' r
  | Some x => assigns setitem s (it_items it) (Some x) s' r
  end.
Proof. exact @update_assigns. Qed.
Print Assumptions C19_update.
Theorem C19_update_keywords : forall V M (setitem : mapst M -> name -> arg V -> mapst M * res unit) s kw,
  let '(s', r) := map_update setitem s [] kw in assigns setitem s kw None s' r.
Proof. exact @update_none. Qed.
Print Assumptions C19_update_keywords.
Theorem C19_update_many : forall V M s (setitem : mapst M -> name -> arg V -> mapst M * res unit) d1 d2 ds kw,
  map_update setitem s (d1 :: d2 :: ds) kw = (s, Err TypeErr).
Proof. exact @update_many. Qed.
Print Assumptions C19_update_many.
Theorem C19_no_fields : forall V M (cls : nat -> ecls V M) isa fields minf own fl h self v, fields = [] ->
  construct_map cls isa fields minf fl own h self v = (MapSt h self [], Err TypeErr).
Proof. exact @no_fields_error. Qed.
Print Assumptions C19_no_fields.
Theorem C19_dict_of : forall fs,
  (NoDup (map f_name fs) -> dict_of fs = Ok fs) /\ (~ NoDup (map f_name fs) -> dict_of fs = Err TypeErr).
Proof. exact dict_of_spec. Qed.
Print Assumptions C19_dict_of.
Example C19_witness :
  unique_fields sample_fields /\ isa_refl Nat.eqb
  /\ snd (construct_map sample_classes Nat.eqb sample_fields MinNone IsDict Subset (sample_heap false) 0 None) = Ok tt
  /\ seen_values (sample_run
       [MSetItem (nm "a") (AVal (VInt 4)); MSetItem (nm "z") (AVal (VInt 4)); MClear;
        MUpdate [Iter [(nm "b", AVal (VInt 6))] None] []; MDelItem (nm "a");
        MSet (Pairs (Iter [(nm "a", VInt 8); (nm "q", VInt 1)] None)) None;
        MUpdate [] [(nm "b", AVal (VInt 9))]]) = [(nm "a", VInt 8); (nm "b", VInt 9)].
Proof. repeat (split; [exact sample_unique || exact eqb_isa_refl || easy|]). reflexivity. Qed.
Example C19_dict_of_witness :
  dict_of sample_fields = Ok sample_fields /\ dict_of (sample_fields ++ [Field (nm "a") 1]) = Err TypeErr.
Proof. split; reflexivity. Qed.

(* C20 *)
Theorem C20_sparse_keys : forall V M (cls : nat -> ecls V M) isa fields own_name minf own h self v os,
  unique_fields fields -> isa_refl isa ->
  snd (construct_map cls isa fields minf IsSparse own h self v) = Ok tt ->
  let s := fst (construct_map cls isa fields minf IsSparse own h self v) in
  sparse_history cls isa fields own_name minf own s os ->
  sparse_shape isa fields (run_sparse cls isa fields own_name minf own s os).
Proof. exact @sparse_built. Qed.
Print Assumptions C20_sparse_keys.
Theorem C20_sparse_required : forall V M (cls : nat -> ecls V M) isa fields own_name minf own h self v os,
  unique_fields fields -> isa_refl isa ->
  subclass_required cls isa fields -> minf = MinRequired -> class_optional cls h ->
  snd (construct_map cls isa fields minf IsSparse own h self v) = Ok tt ->
  let s := fst (construct_map cls isa fields minf IsSparse own h self v) in
  sparse_history cls isa fields own_name minf own s os ->
  required_present cls fields (run_sparse cls isa fields own_name minf own s os).
Proof. exact @sparse_built_full. Qed.
Print Assumptions C20_sparse_required.
(* Finding: an element marked optional on the instance, once assigned to a
   required field, can be deleted *)
Theorem C20_required_removable_refuted :
  exists h os, unique_fields sample_fields /\ subclass_required sample_classes Nat.eqb sample_fields
  /\ let s0 := fst (construct_map sample_classes Nat.eqb sample_fields MinRequired IsSparse Subset h 0 None) in
     sparse_history sample_classes Nat.eqb sample_fields None MinRequired Subset s0 os
     /\ required_present sample_classes sample_fields s0
     /\ ~ required_present sample_classes sample_fields
            (run_sparse sample_classes Nat.eqb sample_fields None MinRequired Subset s0 os).
Proof. exact required_removable. Qed.
Print Assumptions C20_required_removable_refuted.
Example C20_witness :
  unique_fields sample_fields /\ subclass_required sample_classes Nat.eqb sample_fields
  /\ class_optional sample_classes (sample_heap false)
  /\ sparse_history sample_classes Nat.eqb sample_fields None MinRequired Subset (sample_sparse MinRequired []) sparse_ops
  /\ seen_values (sample_sparse MinRequired sparse_ops) = [(nm "a", VInt 5)]
  /\ seen_values (sample_sparse MinRequired (firstn 5 sparse_ops)) = [(nm "a", VInt 2); (nm "b", VInt 4)]
  /\ seen_values (sample_sparse MinNone (firstn 2 sparse_ops)) = [(nm "b", VInt 4)].
Proof.
  split; [exact sample_unique|]. split.
  { intros f c [<-|[<-|[]]]; cbn; [|easy]. intros _ E. apply Nat.eqb_eq in E. now subst. }
  split; [intros e; reflexivity|]. split; [vm_compute; repeat split; lia|]. repeat split; reflexivity.
Qed.

(* C21 *)
Theorem C21_dict_set : forall V M (cls : nat -> ecls V M) isa fields minf own s l last given,
  NoDup (map f_name fields) -> isa_refl isa -> dict_shape fields s -> given <> Some OtherPolicy ->
  let pol := match given with Some p => p | None => own end in
  let s' := fst (dict_set cls isa fields minf IsDict own s (Pairs (Iter l last)) given) in
  exists d, set_outcome cls fields pol l last d (snd (dict_set cls isa fields minf IsDict own s (Pairs (Iter l last)) given))
    /\ contents_after cls fields (fun _ => true) d s'
    /\ untouched (m_h s) (m_h s') /\ m_self s' = m_self s
    /\ forall ke, In ke (m_items s') -> e_next (m_h s) <= snd ke.
Proof. exact @dict_set_outcome. Qed.
Print Assumptions C21_dict_set.
Theorem C21_sparse_set : forall V M (cls : nat -> ecls V M) isa fields minf own s l last given,
  NoDup (map f_name fields) -> isa_refl isa -> given <> Some OtherPolicy ->
  let pol := match given with Some p => p | None => own end in
  let s' := fst (dict_set cls isa fields minf IsSparse own s (Pairs (Iter l last)) given) in
  exists d, set_outcome cls fields pol l last d (snd (dict_set cls isa fields minf IsSparse own s (Pairs (Iter l last)) given))
    /\ contents_after cls fields
         (fun f => match minf with MinNone => false | _ => negb (c_optional (cls (f_class f))) end) d s'
    /\ untouched (m_h s) (m_h s') /\ m_self s' = m_self s
    /\ forall ke, In ke (m_items s') -> e_next (m_h s) <= snd ke.
Proof. exact @sparse_set_outcome. Qed.
Print Assumptions C21_sparse_set.
(* not iterable: TypeError and nothing changes; an unknown policy is refused
   after the members were reset *)
Theorem C21_bad_arguments : forall V M (cls : nat -> ecls V M) isa fields minf own fl s,
  dict_set cls isa fields minf fl own s NotIterable None = (s, Err TypeErr)
  /\ (forall g, dict_set cls isa fields minf fl own s NotIterable g = (s, Err TypeErr))
  /\ (forall it, snd (dict_set cls isa fields minf fl own s (Pairs it) (Some OtherPolicy)) = Err AssertErr)
  /\ (NoDup (map f_name fields) -> dict_shape fields s -> forall it,
      contents_after cls fields
        (fun f => match fl, minf with
                  | IsDict, _ => true | _, MinNone => false | _, _ => negb (c_optional (cls (f_class f))) end)
        [] (fst (dict_set cls isa fields minf fl own s (Pairs it) (Some OtherPolicy)))).
Proof. exact @bad_arguments. Qed.
Print Assumptions C21_bad_arguments.
Theorem C21_mapping_set : forall V M (cls : nat -> ecls V M) isa fields minf own s src,
  NoDup (map f_name fields) -> dict_shape fields s ->
  map_set cls fields s src = dict_set cls isa fields minf IsDict own s src (Some Strict).
Proof. exact @mapping_set_strict. Qed.
Print Assumptions C21_mapping_set.
(* Finding: a call that raises leaves the fields changed *)
Theorem C21_not_atomic_refuted : exists s l,
  dict_shape sample_fields s /\ seen_values s = [(nm "a", VInt 5); (nm "b", VNone)]
  /\ let '(s', r) := dict_set sample_classes Nat.eqb sample_fields MinNone IsDict Subset s (Pairs (Iter l None)) None in
     r = Err KeyErr /\ seen_values s' = [(nm "a", VInt 3); (nm "b", VNone)].
Proof. exact set_not_atomic. Qed.
Print Assumptions C21_not_atomic_refuted.
Example C21_witness :
  dict_shape sample_fields sample_dict
  /\ let run l p := let '(s', r) := dict_set sample_classes Nat.eqb sample_fields MinNone IsDict Subset sample_dict
                                      (Pairs (Iter l None)) p in (seen_values s', r) in
     run [(nm "a", VInt 1); (nm "a", VInt 2)] None = ([(nm "a", VInt 2); (nm "b", VNone)], Ok true)
     /\ run [(nm "a", VText (lit "x"))] None = ([(nm "a", VNone); (nm "b", VNone)], Ok false)
     /\ run [(nm "q", VInt 1); (nm "b", VInt 2)] (Some Duck) = ([(nm "a", VNone); (nm "b", VInt 2)], Ok true)
     /\ run [(nm "q", VInt 1)] (Some Strict) = ([(nm "a", VNone); (nm "b", VNone)], Err KeyErr)
     /\ run [(nm "b", VInt 1)] (Some Strict) = ([(nm "a", VNone); (nm "b", VInt 1)], Err TypeErr).
Proof. split; [exact sample_shape|]. repeat split; reflexivity. Qed.

(* C22, continued *)
Theorem C22_dict_slice : forall V M (cls : nat -> ecls V M) s include omit rename key,
  match dict_slice cls s include omit rename key with
  | Ok out => exists l, sliced (items include) (items omit) (items rename)
                               (match key with Some g => g | None => fun k => k end)
                               (map (fun ke => (fst ke, c_value (cls (e_class (m_h s) (snd ke))) (e_con (m_h s) (snd ke)))) (m_items s)) l
       /\ NoDup (keys out) /\ forall k v, In (k, v) out <-> last_value k l v
  | Err x => x = TypeErr /\ items include <> [] /\ items omit <> []
  end.
Proof. exact @slice_spec. Qed.
Print Assumptions C22_dict_slice.
Theorem C22_update_object : forall V M (cls : nat -> ecls V M) s obj include omit rename key,
  match update_object cls s obj include omit rename key with
  | (obj', Ok _) => exists out, dict_slice cls s include omit rename (Some key) = Ok out
       /\ ~ In None (map fst out)
       /\ forall a, (forall v, In (a, v) out -> obj' a = Some v) /\ (~ In a (map fst out) -> obj' a = obj a)
  | (obj', Err x) => x = TypeErr
       /\ ((obj' = obj /\ items include <> [] /\ items omit <> [])
           \/ exists out, dict_slice cls s include omit rename (Some key) = Ok out
                /\ In None (map fst out) /\ obj' None = obj None
                /\ forall a, obj' a = obj a \/ exists v, In (a, v) out /\ obj' a = Some v)
  end.
Proof. exact @update_object_spec. Qed.
Print Assumptions C22_update_object.
Example C22_map_witness :
  let s := sample_run [MSetItem (nm "a") (AVal (VInt 4)); MSetItem (nm "b") (AVal (VInt 6))] in
  dict_slice sample_classes s (Some [nm "b"]) None (Some [(nm "a", nm "q")]) None = Ok [(nm "q", VInt 4); (nm "b", VInt 6)]
  /\ fst (update_object sample_classes s (fun _ => None) None (Some [nm "a"]) None (fun k => k)) (nm "b") = Some (VInt 6)
  /\ fst (update_object sample_classes s (fun _ => None) None (Some [nm "a"]) None (fun k => k)) (nm "a") = None
  /\ snd (update_object sample_classes s (fun _ => None) None None (Some [(nm "a", None)]) (fun k => k)) = Err TypeErr.
Proof. repeat split; reflexivity. Qed.

(* C23 *)
Theorem C23_selected_attributes : forall V M (cls : nat -> ecls V M) isa fields minf own fl s obj include omit rename order,
  let fs := keys (m_items s) in
  (forall a, In a (attributes fs (items omit) (items rename)) -> In a order) ->
  ~ (items include <> [] /\ items omit <> []) ->
  ~ In None (attributes fs (items omit) (items rename)) ->
  exists D : list (name * V), NoDup (map fst D)
    /\ (forall f v, In (f, v) D ->
          exists a, feeds fs (items include) (items omit) (items rename) a f /\ obj a = Some v)
    /\ (forall a f v, feeds fs (items include) (items omit) (items rename) a f -> obj a = Some v ->
          In f (map fst D))
    /\ set_by_object cls isa fields minf fl own s obj include omit rename order
       = let '(s', r) := dict_set cls isa fields minf fl own s (Pairs (Iter D None)) None in
         (s', rmap (fun _ => tt) r).
Proof. exact @transfer. Qed.
Print Assumptions C23_selected_attributes.
Theorem C23_dict_contents : forall V M (cls : nat -> ecls V M) isa fields minf own s obj include omit rename order,
  unique_fields fields -> isa_refl isa -> dict_shape fields s ->
  let names := map f_name fields in
  (forall a, In a (attributes (keys (m_items s)) (items omit) (items rename)) -> In a order) ->
  let '(s', r) := set_by_object cls isa fields minf IsDict own s obj include omit rename order in
  let feed := feeds names (items include) (items omit) (items rename) in
  match r with
  | Ok _ => ~ In None (attributes (keys (m_items s)) (items omit) (items rename)) /\ forall f, In f fields ->
      (content s' (f_name f) = Some (c_new (cls (f_class f)))
         /\ own <> Strict /\ forall a, feed a (f_name f) -> obj a = None)
      \/ exists a v, feed a (f_name f) /\ obj a = Some v
           /\ content s' (f_name f) = Some (fst (c_set (cls (f_class f)) (c_new (cls (f_class f))) v))
           /\ exists b, snd (c_set (cls (f_class f)) (c_new (cls (f_class f))) v) = Ok b
  | Err x =>
      (x = TypeErr /\ s' = s
         /\ (items include <> [] /\ items omit <> [] \/ In None (attributes (keys (m_items s)) (items omit) (items rename))))
      \/ (x = TypeErr /\ own = Strict /\ exists f, In f fields /\ forall a, feed a (f_name f) -> obj a = None)
      \/ exists f a v, In f fields /\ feed a (f_name f) /\ obj a = Some v
           /\ snd (c_set (cls (f_class f)) (c_new (cls (f_class f))) v) = Err x
  end.
Proof. exact @transfer_contents. Qed.
Print Assumptions C23_dict_contents.
Theorem C23_include_and_omit : forall V M (cls : nat -> ecls V M) isa fields minf own fl s obj include omit rename order,
  items include <> [] -> items omit <> [] ->
  set_by_object cls isa fields minf fl own s obj include omit rename order = (s, Err TypeErr).
Proof. exact @transfer_both. Qed.
Print Assumptions C23_include_and_omit.
(* a nameless field cannot be read off an object *)
Theorem C23_nameless_attribute : forall V M (cls : nat -> ecls V M) isa fields minf own fl s obj include omit rename order,
  In None (attributes (keys (m_items s)) (items omit) (items rename)) ->
  set_by_object cls isa fields minf fl own s obj include omit rename order = (s, Err TypeErr).
Proof. exact @transfer_none. Qed.
Print Assumptions C23_nameless_attribute.
(* the attributes asked for: fields, and renamed sources of fields, less omitted *)
Theorem C23_attributes_read : forall fs omit rename a,
  (forall x, In x fs -> ~ In x omit -> In x (attributes fs omit rename))
  /\ (In a (attributes fs omit rename) -> ~ In a omit)
  /\ (forall f, In f fs -> In (a, f) rename -> ~ In a omit -> In a (attributes fs omit rename))
  /\ (In a (attributes fs omit rename) -> In a fs \/ In a (map fst rename)).
Proof. exact attributes_in. Qed.
Print Assumptions C23_attributes_read.
(* Findings: omit wins over rename; two attributes for one field race; a
   SparseDict without minimum_fields takes nothing from an object *)
Theorem C23_rename_omitted_refuted : exists obj rename omit order,
  In (nm "x", nm "a") rename /\ obj (nm "x") = Some (VInt 1)
  /\ (forall a, In a (attributes (keys (m_items sample_dict)) omit rename) -> In a order)
  /\ let '(s', r) := set_by_object sample_classes Nat.eqb sample_fields MinNone IsDict Subset sample_dict obj
                       None (Some omit) (Some rename) order in
     r = Ok tt /\ seen_values s' = [(nm "a", VNone); (nm "b", VNone)].
Proof. exact rename_omitted. Qed.
Print Assumptions C23_rename_omitted_refuted.
Theorem C23_order_matters_refuted : exists obj rename order order',
  (forall a, In a order <-> In a order')
  /\ (forall a, In a order <-> In a (attributes (keys (m_items sample_dict)) [] rename))
  /\ NoDup order /\ NoDup order'
  /\ let run o := seen_values (fst (set_by_object sample_classes Nat.eqb sample_fields MinNone IsDict Subset
                         sample_dict obj None None (Some rename) o)) in
     run order = [(nm "a", VInt 2); (nm "b", VNone)] /\ run order' = [(nm "a", VInt 1); (nm "b", VNone)].
Proof. exact order_matters. Qed.
Print Assumptions C23_order_matters_refuted.
Theorem C23_sparse_from_object : forall V M (cls : nat -> ecls V M) isa fields minf own h self obj include omit rename order,
  NoDup (map f_name fields) -> fields <> [] -> minf = MinNone -> own <> Strict ->
  ~ (items include <> [] /\ items omit <> []) ->
  (forall a, In a (attributes [] (items omit) (items rename)) -> In a order) ->
  let '(s, r) := from_object cls isa fields minf IsSparse own h self None obj include omit rename order in
  m_items s = [] /\ r = Ok tt.
Proof. exact @sparse_from_object. Qed.
Print Assumptions C23_sparse_from_object.
Example C23_witness :
  dict_shape sample_fields sample_dict
  /\ seen_values (fst (set_by_object sample_classes Nat.eqb sample_fields MinNone IsDict Subset sample_dict
        (attrs [("a"%string, 1%Z); ("y"%string, 2%Z); ("c"%string, 3%Z)]) None None (Some [(nm "y", nm "b")])
        [nm "y"; nm "a"; nm "b"])) = [(nm "a", VInt 1); (nm "b", VInt 2)]
  /\ seen_values (fst (from_object sample_classes Nat.eqb sample_fields MinNone IsDict Subset (sample_heap false) 0 None
        (attrs [("a"%string, 1%Z); ("b"%string, 2%Z)]) None (Some [nm "b"]) None [nm "b"; nm "a"]))
     = [(nm "a", VInt 1); (nm "b", VNone)]
  /\ snd (set_by_object sample_classes Nat.eqb sample_fields MinNone IsDict Subset sample_dict
        (attrs [("a"%string, 1%Z)]) None None (Some [(None, nm "b")]) [nm "a"; nm "b"; None]) = Err TypeErr.
Proof. split; [exact sample_shape|]. repeat split; reflexivity. Qed.

(* C60 *)
Theorem C60_set_flat_routing : forall V M (cls : nat -> ecls V M) isa fields own_name fl s pairs sep,
  NoDup (map f_name fields) -> isa_refl isa ->
  (fl = IsDict -> dict_shape fields s) -> (forall k e, mget k s = Some e -> e < e_next (m_h s)) ->
  NoDup (keys (m_items s)) -> NoDup (map snd (m_items s)) ->
  Forall (fun kv => fst kv <> None) pairs -> (forall f, In f fields -> f_name f <> None) ->
  let mine := field_pairs own_name sep pairs in
  let '(s', r) := map_set_flat cls fields own_name (do_setitem cls isa fields fl) s pairs sep in
  (forall k, ~ In k (map f_name fields) -> content s' k = content s k)
  /\ (forall f, In f fields -> mine f = [] -> content s' (f_name f) = content s (f_name f))
  /\ match r with
     | Ok _ => forall f, In f fields -> mine f <> [] ->
         content s' (f_name f) = Some (fst (flat_call cls s f (mine f)))
         /\ snd (flat_call cls s f (mine f)) = Ok tt
     | Err x =>
         (exists f, In f fields /\ mine f <> [] /\ snd (flat_call cls s f (mine f)) = Err x
                    /\ content s' (f_name f) = Some (fst (flat_call cls s f (mine f))))
         /\ forall f, In f fields -> content s' (f_name f) = content s (f_name f)
              \/ (content s' (f_name f) = Some (fst (flat_call cls s f (mine f))) /\ mine f <> [])
     end.
Proof. exact @flat_calls. Qed.
Print Assumptions C60_set_flat_routing.
(* Findings: a None key raises AttributeError; a field named None raises TypeError *)
Theorem C60_set_flat_raises_refuted :
  (exists s pairs, dict_shape sample_fields s
     /\ map_set_flat sample_classes sample_fields (nm "d") (map_setitem sample_classes) s pairs (lit "_") = (s, Err AttributeErr))
  /\ exists fields s pairs, NoDup (map f_name fields) /\ dict_shape fields s
     /\ map_set_flat sample_classes fields None (map_setitem sample_classes) s pairs (lit "_") = (s, Err TypeErr).
Proof. exact flat_raises. Qed.
Print Assumptions C60_set_flat_raises_refuted.
Example C60_witness :
  dict_shape sample_fields sample_dict
  /\ seen_values (fst (map_set_flat sample_classes sample_fields (nm "d") (map_setitem sample_classes) sample_dict
        [(nm "d_a", VInt 3); (nm "x_a", VInt 4); (nm "b", VInt 5); (nm "d_bb", VInt 6)] (lit "_")))
     = [(nm "a", VInt 3); (nm "b", VInt 6)]
  /\ field_pairs (nm "d") (lit "_") [(nm "d_a", VInt 3); (nm "x_a", VInt 4)] (Field (nm "a") 0) = [(nm "a", VInt 3)].
Proof. split; [exact sample_shape|]. split; reflexivity. Qed.

(* C61 *)
Theorem C61_dict_default : forall V M (cls : nat -> ecls V M) fields set s d,
  NoDup (map f_name fields) -> dict_shape fields s -> (d = MDNone \/ d = MDUnspecified) ->
  let '(s', r) := map_set_default cls set s d in
  same_members s s'
  /\ exists start, (forall f, In f fields -> content s (f_name f) = Some (start f))
      /\ defaulted cls fields (fun _ => true) (content s) (content s') start r
      /\ forall f, In f fields -> content s' (f_name f) = Some (start f)
                   \/ content s' (f_name f) = Some (fst (c_default (cls (f_class f)) (start f))).
Proof. exact @dict_default. Qed.
Print Assumptions C61_dict_default.
Theorem C61_given_default : forall V M (cls : nat -> ecls V M) isa fields minf own set s src,
  map_set_default cls set s (MDValue src) = (fst (set s src), rmap (fun _ => tt) (snd (set s src)))
  /\ sparse_set_default cls isa fields minf own s (MDValue src)
     = (fst (dict_set cls isa fields minf IsSparse own s src None),
        rmap (fun _ => tt) (snd (dict_set cls isa fields minf IsSparse own s src None))).
Proof. exact @given_default. Qed.
Print Assumptions C61_given_default.
Theorem C61_sparse_default : forall V M (cls : nat -> ecls V M) isa fields minf own s d,
  NoDup (map f_name fields) -> isa_refl isa -> (d = MDNone \/ d = MDUnspecified) ->
  let '(s', r) := sparse_set_default cls isa fields minf own s d in
  match minf with
  | MinNone => m_items s' = [] /\ m_h s' = m_h s /\ r = Ok tt
  | MinRequired =>
      (forall k, ~ In k (map f_name fields) -> content s' k = None)
      /\ defaulted cls fields (fun f => negb (c_optional (cls (f_class f)))) (fun _ => None) (content s')
                   (fun f => c_new (cls (f_class f))) r
  | MinOther => s' = s /\ r = Err RuntimeErr
  end.
Proof. exact @sparse_default_outcome. Qed.
Print Assumptions C61_sparse_default.
Example C61_witness :
  dict_shape sample_fields sample_dict
  /\ seen_values (sample_run [MSetDefault MDNone]) = [(nm "a", VInt 7); (nm "b", VInt 7)]
  /\ seen_values (sample_run [MSetDefault (MDValue (Pairs (Iter [(nm "b", VInt 3)] None)))]) = [(nm "a", VNone); (nm "b", VInt 3)]
  /\ seen_values (sample_sparse MinRequired [MSetDefault MDUnspecified]) = [(nm "a", VInt 7)]
  /\ seen_values (sample_sparse MinNone [MSetItem (nm "a") (AVal (VInt 1)); MSetDefault MDNone]) = [].
Proof. split; [exact sample_shape|]. repeat split; reflexivity. Qed.

(* C62 *)
Theorem C62_assign : forall V M (cls : nat -> ecls V M) isa fields s k (a : arg V),
  NoDup (map f_name fields) -> sparse_shape isa fields s ->
  let '(s', r) := sparse_setitem cls isa fields s k a in
  (~ In k (map f_name fields) -> s' = s /\ r = Err TypeErr)
  /\ forall f, In f fields -> f_name f = k ->
     (forall e, a = AElem e -> isa (e_class (m_h s) e) (f_class f) = true -> stored s s' k e /\ r = Ok tt)
     /\ ((forall e, a = AElem e -> isa (e_class (m_h s) e) (f_class f) = false) ->
         (forall e, In (k, e) (m_items s) ->
            let m := assigned cls (m_h s) (e_class (m_h s) e) (e_con (m_h s) e) a in
            only_content s s' e (fst m) /\ r = rmap (fun _ => tt) (snd m))
         /\ (~ In k (keys (m_items s)) ->
            let m := assigned cls (m_h s) (f_class f) (c_new (cls (f_class f))) a in
            match snd m with
            | Ok _ => r = Ok tt /\ created cls s s' k (f_class f) (fst m)
            | Err x => r = Err x /\ s' = s
            end)).
Proof. exact @sparse_assign. Qed.
Print Assumptions C62_assign.
Theorem C62_delete : forall V M (cls : nat -> ecls V M) isa fields minf s k,
  NoDup (map f_name fields) -> sparse_shape isa fields s ->
  let '(s', r) := sparse_delitem cls fields minf s k in
  (forall e, In (k, e) (m_items s) ->
     if (match minf with MinNone => true | _ => e_optional (m_h s) e end)
     then removed s s' k /\ r = Ok tt else s' = s /\ r = Err TypeErr)
  /\ (forall f, In f fields -> f_name f = k -> ~ In k (keys (m_items s)) ->
       s' = s /\ r = Err (if (match minf with MinNone => true | _ => c_optional (cls (f_class f)) end)
                          then KeyErr else TypeErr))
  /\ (~ In k (map f_name fields) -> s' = s /\ r = Err TypeErr).
Proof. exact @sparse_delete. Qed.
Print Assumptions C62_delete.
Theorem C62_pop : forall M isa fields minf (s : mapst M) k, sparse_shape isa fields s ->
  let '(s', r) := sparse_pop minf s k in
  (forall e, In (k, e) (m_items s) ->
     if (match minf with MinRequired => e_optional (m_h s) e | _ => true end)
     then removed s s' k /\ r = Ok e else s' = s /\ r = Err TypeErr)
  /\ (~ In k (keys (m_items s)) -> s' = s /\ r = Err KeyErr).
Proof. exact @sparse_popped. Qed.
Print Assumptions C62_pop.
Theorem C62_setdefault : forall V M (cls : nat -> ecls V M) isa fields s k (d : V),
  NoDup (map f_name fields) -> isa_refl isa -> sparse_shape isa fields s ->
  let '(s', r) := sparse_setdefault cls isa fields s k d in
  (~ In k (map f_name fields) -> s' = s /\ r = Err TypeErr)
  /\ (forall e, In (k, e) (m_items s) ->
       let c := cls (e_class (m_h s) e) in
       if c_empty c (e_con (m_h s) e)
       then only_content s s' e (fst (c_set c (e_con (m_h s) e) d))
            /\ r = rmap (fun _ => d) (snd (c_set c (e_con (m_h s) e) d))
       else s' = s /\ r = Ok (c_value c (e_con (m_h s) e)))
  /\ (forall f, In f fields -> f_name f = k -> ~ In k (keys (m_items s)) ->
       let c := cls (f_class f) in
       created cls s s' k (f_class f) (fst (c_set c (c_new c) d))
       /\ r = rmap (fun _ => d) (snd (c_set c (c_new c) d))).
Proof. exact @setdefault_spec. Qed.
Print Assumptions C62_setdefault.
(* clear() and a new SparseDict: the required fields, blank *)
Theorem C62_clear : forall V M (cls : nat -> ecls V M) fields minf s, NoDup (map f_name fields) ->
  let s' := sparse_reset cls fields minf s in
  (forall f, In f fields ->
     content s' (f_name f)
     = match minf with
       | MinNone => None
       | _ => if c_optional (cls (f_class f)) then None else Some (c_new (cls (f_class f)))
       end)
  /\ (forall k, ~ In k (map f_name fields) -> content s' k = None)
  /\ untouched (m_h s) (m_h s') /\ (forall ke, In ke (m_items s') -> e_next (m_h s) <= snd ke).
Proof. exact @cleared. Qed.
Print Assumptions C62_clear.
Theorem C62_steps : forall V M (cls : nat -> ecls V M) isa fields own_name minf own s,
  let step := sparse_step cls isa fields own_name minf own s in
  step MClear = (sparse_reset cls fields minf s, Ok MONone)
  /\ step MPopItem = (s, Err NotImplErr)
  /\ (forall k, step (MPop k) = let '(s', r) := sparse_pop minf s k in (s', rmap MOElem r))
  /\ (forall k, step (MDelItem k) = let '(s', r) := sparse_delitem cls fields minf s k in (s', rmap mnone r))
  /\ (forall k a, step (MSetItem k a) = let '(s', r) := sparse_setitem cls isa fields s k a in (s', rmap mnone r))
  /\ (forall k d, step (MSetdefault k d) = let '(s', r) := sparse_setdefault cls isa fields s k d in (s', rmap MOValue r))
  /\ (forall k, step (MGet k) = (s, match aget name_eqb k (m_items s) with
                                    | Some e => Ok (MOElem e) | None => Err KeyErr end)).
Proof. exact @sparse_steps. Qed.
Print Assumptions C62_steps.
Theorem C62_may_contain : forall M isa fields (s : mapst M) k, sparse_shape isa fields s ->
  sparse_may fields s k = true <-> In k (map f_name fields).
Proof. exact @may_spec. Qed.
Print Assumptions C62_may_contain.
Theorem C62_is_empty : forall M (s : mapst M), map_is_empty IsSparse s = true <-> keys (m_items s) = [].
Proof. exact @sparse_empty. Qed.
Print Assumptions C62_is_empty.
Example C62_witness :
  let s := sample_sparse MinRequired [] in
  snd (sparse_delitem sample_classes sample_fields MinRequired s (nm "a")) = Err TypeErr
  /\ snd (sparse_delitem sample_classes sample_fields MinRequired s (nm "b")) = Err KeyErr
  /\ snd (sparse_delitem sample_classes sample_fields MinRequired s (nm "z")) = Err TypeErr
  /\ snd (sparse_pop MinRequired s (nm "a")) = Err TypeErr
  /\ seen_values (fst (sparse_setitem sample_classes Nat.eqb sample_fields s (nm "b") (AVal (VInt 2))))
     = [(nm "a", VNone); (nm "b", VInt 2)]
  /\ seen_values (fst (sparse_setitem sample_classes Nat.eqb sample_fields s (nm "a") (AElem 1))) = [(nm "a", VInt 5)]
  /\ sparse_setdefault sample_classes Nat.eqb sample_fields
       (fst (sparse_setitem sample_classes Nat.eqb sample_fields s (nm "a") (AElem 1))) (nm "a") (VInt 9)
     = (fst (sparse_setitem sample_classes Nat.eqb sample_fields s (nm "a") (AElem 1)), Ok (VInt 5)).
Proof. repeat split; reflexivity. Qed.
