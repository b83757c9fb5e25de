(* Model of element lookup: el and fq_name (flatland/schema/base.py) and path
   expressions (flatland/schema/paths.py). *)
From Verif Require Import PyBase PyList ModelUtil ModelSeq ModelProps ModelDsl.

(* A tree of elements.
   - Leaf: a scalar;
   - Map: a Mapping (Dict, Form, SparseDict, Compound) with its children by key,
     in iteration order; truth is bool(element), which a Compound redefines
     (scalars.py:134-136);
   - Seq: a Sequence; slots tells List (members wrapped in ListSlots) from
     Array, MultiValue and JoinedString.
   Parent and child pointers of built elements agree (C17, C19), so a location
   in the tree stands for an element. *)
Inductive tree :=
| Leaf (n : name)
| Map (n : name) (truth : bool) (kids : list (name * tree))
| Seq (slots : bool) (n : name) (truth : bool) (kids : list tree).
(* schema/base.py:69: element.name *)
Definition tree_name (t : tree) : name := match t with Leaf n | Map n _ _ | Seq _ n _ _ => n end.
(* schema/base.py:402-405: the child at an index *)
Definition kid (t : tree) (i : nat) : option tree :=
  match t with
  | Leaf _ => None
  | Map _ _ l => option_map snd (nth_error l i)
  | Seq _ _ _ l => nth_error l i
  end.
(* A location: the indexes from the element up to the root.  An element is the
   node at a location, or the ListSlot that holds it. *)
Notation loc := (list nat).
(* schema/base.py:402-405: the element at a location *)
Fixpoint node_at (t : tree) (p : loc) : option tree :=
  match p with
  | [] => Some t
  | i :: q => match node_at t q with Some u => kid u i | None => None end
  end.
(* schema/base.py:388-395, schema/containers.py:401-417 *)
Inductive elem := Node (p : loc) | SlotOf (p : loc).
(* schema/containers.py:436: a List wraps its members in ListSlots *)
Definition slotted (t : tree) (p : loc) : bool :=
  match node_at t p with Some (Seq true _ _ _) => true | _ => false end.

Section In.
Variable t : tree.

(* element.parent; a member of a List has its slot for parent
   (containers.py:413-417) *)
Definition parent (e : elem) : option elem :=
  match e with
  | Node [] => None
  | Node (i :: q) => Some (if slotted t q then SlotOf (i :: q) else Node q)
  | SlotOf p => Some (Node (tl p))
  end.
(* base.py:388-395 parents, innermost first *)
Fixpoint parents_of_node (p : loc) : list elem :=
  match p with
  | [] => []
  | i :: q => (if slotted t q then [SlotOf p] else []) ++ Node q :: parents_of_node q
  end.
(* schema/base.py:388-395 *)
Definition parents (e : elem) : list elem :=
  match e with
  | Node p => parents_of_node p
  | SlotOf p => Node (tl p) :: parents_of_node (tl p)
  end.
(* base.py:380-386 root *)
Definition root (e : elem) : elem := last (parents e) e.
(* element.name; a ListSlot is named by its index (containers.py:466-470) *)
Definition elem_name (e : elem) : name :=
  match e with
  | Node p => match node_at t p with Some u => tree_name u | None => None end
  | SlotOf (i :: _) => Some (dec_nat i)
  | SlotOf [] => None
  end.
(* schema/paths.py:67: bool(element) *)
Definition truthy (e : elem) : bool :=
  match e with
  | SlotOf _ => true
  | Node p => match node_at t p with
              | Some (Map _ b _) | Some (Seq _ _ b _) => b
              | _ => false   (* leaves are no one's parent: not used *)
              end
  end.
(* element.children: base.py:402-405, containers.py:274-276, 544-546, 809-812 *)
Definition children (e : elem) : list elem :=
  match e with
  | SlotOf _ => []
  | Node p => match node_at t p with
              | Some (Map _ _ l) => map (fun i => Node (i :: p)) (seq 0 (List.length l))
              | Some (Seq _ _ _ l) => map (fun i => Node (i :: p)) (seq 0 (List.length l))
              | _ => []
              end
  end.
(* element._index(x), for x a name: base.py:592-594 (a ListSlot has no other),
   scalars.py:120-121, containers.py:282-287 and 876-877 *)
Definition index (e : elem) (x : name) : res elem :=
  match e with
  | SlotOf _ => Err NotImplErr
  | Node p =>
      match node_at t p with
      | Some (Map _ _ l) => match find_index (fun kv => name_eqb (fst kv) x) l with
                            | Some i => Ok (Node (i :: p))
                            | None => Err KeyErr
                            end
      | Some (Seq _ _ _ l) =>
          match x with
          | None => Err TypeErr       (* int(None) *)
          | Some s => match py_int s with
                      | Err _ => Err IndexErr
                      | Ok z => match norm_index (List.length l) z with
                                | Some i => Ok (Node (i :: p))
                                | None => Err IndexErr
                                end
                      end
          end
      | _ => Err IndexErr             (* scalars.py:120-121 *)
      end
  end.
(* schema/base.py:589, schema/paths.py:74: except LookupError *)
Definition is_lookup (x : exn) : bool := match x with KeyErr | IndexErr | LookupErr => true | _ => false end.

(* base.py:579-590 el: the steps left to take; None is the Root marker, which is
   no key and no integer *)
Fixpoint walk (e : elem) (names : list (option name)) : res elem :=
  match names with
  | [] => Ok e
  | Some x :: r => bind (index e x) (fun e' => walk e' r)
  | None :: r => match e with
                 | SlotOf _ => Err NotImplErr
                 | Node p => match node_at t p with
                             | Some (Map _ _ _) => Err KeyErr
                             | Some (Seq _ _ _ _) => Err TypeErr
                             | _ => Err IndexErr
                             end
                 end
  end.
(* schema/base.py:589-590 *)
Definition as_key_error {A} (r : res A) : res A :=
  match r with Err x => Err (if is_lookup x then KeyErr else x) | r => r end.
(* schema/base.py:579-590, 608-609: el(path) for an iterable *)
Definition el_names (e : elem) (names : list (option name)) : res elem :=
  as_key_error (match names with
                | [] => Err IndexErr
                | None :: r => walk (root e) r
                | r => walk e r
                end).
(* schema/base.py:579-607: el(path, sep) for a string *)
Definition el (e : elem) (path sep : str) : res elem :=
  as_key_error (bind (parse_element_path path sep) (fun l => el_names e (map (option_map Some) l))).

(* base.py:397-400 path *)
Definition path_to (e : elem) : list elem := rev (parents e) ++ [e].
(* base.py:407-418 all_children, the elements yielded; elements are compared by
   identity *)
Definition elem_eqb (a b : elem) : bool :=
  match a, b with
  | Node p, Node q | SlotOf p, SlotOf q => if list_eq_dec Nat.eq_dec p q then true else false
  | _, _ => false
  end.
(* schema/base.py:411-418 *)
Fixpoint breadth_first (fuel : nat) (seen queue : list elem) : res (list elem) :=
  match queue with
  | [] => Ok []
  | e :: q => match fuel with
              | O => Err OutOfFuel
              | S fuel => if memb elem_eqb e seen then breadth_first fuel seen q
                          else rmap (cons e) (breadth_first fuel (e :: seen) (q ++ children e))
              end
  end.
(* schema/base.py:407-418 *)
Definition all_children (fuel : nat) (e : elem) : res (list elem) := breadth_first fuel [e] (children e).

(* base.py:456-479 fq_name.  The slot masks the name of its element. *)
Fixpoint fq_parts (l : list elem) (mask : option str) : list name :=
  match l with
  | [] => []
  | SlotOf p :: r => fq_parts r (elem_name (SlotOf p))
  | Node p :: r => match mask with
                   | Some ((_ :: _) as m) => Some m :: fq_parts r None
                   | _ => elem_name (Node p) :: fq_parts r mask
                   end
  end.
(* schema/base.py:479: sep.join(parts) *)
Fixpoint all_text (l : list name) : option (list str) :=
  match l with
  | [] => Some []
  | Some s :: r => option_map (cons s) (all_text r)
  | None :: _ => None
  end.
(* schema/base.py:456-479 *)
Definition fq_name (e : elem) (sep : str) : res str :=
  match parent e with
  | None => Ok sep
  | Some _ =>
      let children_of_root := rev (removelast (parents e)) in
      match all_text (fq_parts (children_of_root ++ [e]) None) with
      | Some parts => Ok (sep ++ join sep parts)
      | None => Err TypeErr     (* join of a None *)
      end
  end.
End In.

(* schema/paths.py:11-15: ---- paths.py *)
Inductive op := TOP | UP | HERE | SLICE (s : slice) | NAME (x : name).
(* schema/paths.py:17-35 *)
Definition backslash : N := 92%N.
(* schema/paths.py:17-35: is the character [a] *)
Definition is_ch (a : Ascii.ascii) (c : N) : bool := N.eqb c (ch a).

(* _tokenize_re (paths.py:17-34), alternative 1: a name, the longest run of
   escaped / . [ and of characters other than / and [ *)
Definition pair (c d : N) : bool :=
  N.eqb c backslash && (is_ch "/" d || is_ch "." d || is_ch "[" d).
(* schema/paths.py:20: not in the class of characters other than / and [ *)
Definition stop (c : N) : bool := is_ch "/" c || is_ch "[" c.
(* schema/paths.py:20 *)
Fixpoint munch (s : str) : str * str :=
  match s with
  | [] => ([], [])
  | c :: r =>
      match r with
      | d :: r' => if pair c d then let '(a, b) := munch r' in (c :: d :: a, b)
                   else if stop c then ([], s)
                   else let '(a, b) := munch r in (c :: a, b)
      | [] => if stop c then ([], s) else ([c], [])
      end
  end.
(* schema/paths.py:24, 26: the text up to the first ] and the text after it *)
Fixpoint to_bracket (s : str) : option (str * str) :=
  match s with
  | [] => None
  | c :: r => if is_ch "]" c then Some ([], r)
              else match to_bracket r with Some (a, b) => Some (c :: a, b) | None => None end
  end.
(* schema/paths.py:24, 26: (?=$|/|\[): $ also matches before a final newline
   *)
Definition ahead (s : str) : bool :=
  match s with
  | [] => true
  | c :: r => is_ch "/" c || is_ch "[" c || (N.eqb c 10 && match r with [] => true | _ => false end)
  end.
(* schema/paths.py:24: -?\d*:?-?\d*\:?-?\d* on the whole text. Every part is
   optional, so taking greedily what comes first finds a match whenever there
   is one. *)
Definition opt (a : Ascii.ascii) (s : str) : str :=
  match s with c :: r => if is_ch a c then r else s | [] => [] end.
(* schema/paths.py:24 *)
Fixpoint skip_digits (s : str) : str :=
  match s with c :: r => if is_digit c then skip_digits r else s | [] => [] end.
(* schema/paths.py:24: an optional - and digits *)
Definition number (s : str) : str := skip_digits (opt "-" s).
(* schema/paths.py:24 *)
Definition is_slice_spec (s : str) : bool :=
  match number (opt ":" (number (opt ":" (number s)))) with [] => true | _ => false end.
(* schema/paths.py:22, 24, 26: the lookbehind for a backslash *)
Definition not_escaped (prev : option N) : bool :=
  match prev with Some c => negb (N.eqb c backslash) | None => true end.
(* schema/paths.py:24, 26: the character before *)
Definition last_char (d : option N) (s : str) : option N := last (map Some s) d.

(* schema/paths.py:17-34: findall: (token, slice_spec) pairs. prev is the
   character before s. The alternatives for . and .. never apply: the first
   one takes them. *)
Definition next_token (prev : option N) (s : str) : option (str * str * str) :=
  match munch s with
  | ((_ :: _) as a, b) => Some (a, [], b)
  | ([], _) =>
      match s with
      | [] => None
      | c :: r =>
          if is_ch "/" c && not_escaped prev then Some ([c], [], r)
          else match (if is_ch "[" c && not_escaped prev then to_bracket r else None) with
               | Some (a, b) =>
                   if is_slice_spec a && ahead b then Some (c :: a ++ [ch "]"], a, b)
                   else if not_escaped (last_char (Some c) a) && ahead b then Some (c :: a ++ [ch "]"], [], b)
                   else if is_ch "[" c then Some ([c], [], r) else None
               | None => if is_ch "[" c then Some ([c], [], r) else None
               end
      end
  end.
(* schema/paths.py:110: findall, with fuel *)
Fixpoint lex (fuel : nat) (prev : option N) (s : str) : list (str * str) :=
  match fuel with
  | O => []
  | S fuel =>
      match s with
      | [] => []
      | c :: r => match next_token prev s with
                  | Some (tok, spec, rest) => (tok, spec) :: lex fuel (last_char prev tok) rest
                  | None => lex fuel (Some c) r
                  end
      end
  end.
(* schema/paths.py:110: every token takes at least a character *)
Definition findall (s : str) : list (str * str) := lex (List.length s) None s.

(* paths.py:35 _unescape_re.sub(r'\1', token) *)
Fixpoint unescape (s : str) : str :=
  match s with
  | [] => []
  | c :: r => match r with
              | d :: r' => if N.eqb c backslash && (is_ch "/" d || is_ch "[" d || is_ch "]" d || is_ch "." d)
                           then d :: unescape r'
                           else c :: unescape r
              | [] => [c]
              end
  end.

(* paths.py:172-194 _parse_slice *)
Definition seg (s : str) : res (option Z) := match s with [] => Ok None | _ => rmap Some (py_int s) end.
(* schema/paths.py:186, 191: x and int(x) or d *)
Definition or_z (o : option Z) (d : Z) : Z := match o with Some z => if Z.eqb z 0 then d else z | None => d end.
(* schema/paths.py:187: x and int(x) or None *)
Definition or_none (o : option Z) : option Z := match o with Some z => if Z.eqb z 0 then None else Some z | None => None end.
(* schema/paths.py:172-194: pattern.split(':', 2); the pattern has at most two
   colons *)
Definition parse_slice (pattern : str) : res op :=
  if str_eqb pattern (lit ":") || str_eqb pattern (lit "::") then Ok (SLICE (Slice None None None))
  else if negb (memb N.eqb (ch ":") pattern)
  then if negb (starts_with (lit "-") pattern) then Ok (NAME (Some pattern))
       else bind (py_int pattern) (fun offset =>
            Ok (SLICE (if Z.eqb offset (-1) then Slice (Some offset) None None
                       else Slice (Some offset) (Some (offset + 1)%Z) None)))
  else match split (lit ":") pattern with
       | s0 :: s1 :: more =>
           bind (seg s0) (fun a => bind (seg s1) (fun b =>
           let start := or_z a 0 in
           let stop := or_none b in
           match more with
           | [] => Ok (SLICE (Slice (Some start) stop None))
           | s2 :: _ => bind (seg s2) (fun c =>
                        Ok (SLICE (Slice (match s0 with [] => None | _ => Some start end) stop (Some (or_z c 1)))))
           end))
       | _ => Err IndexErr
       end.

(* paths.py:104-150 tokenize.  The list of tokens is kept last first. *)
Record tok_state := TokState { ts_tokens : list op; ts_last : option str; ts_name : bool; ts_canonical : bool }.
(* schema/paths.py:134: is NAME *)
Definition is_name (o : op) : bool := match o with NAME _ => true | _ => false end.
(* schema/paths.py:134, 145: last_type is NAME *)
Definition last_is_name (l : list op) : bool := match l with o :: _ => is_name o | [] => false end.
(* schema/paths.py:111-145 *)
Definition token_step (st : tok_state) (ts : str * str) : res tok_state :=
  let '(token, spec) := ts in
  let toks := ts_tokens st in
  let done toks canon := Ok (TokState toks (Some token) (last_is_name toks) canon) in
  if str_eqb token (lit "/")
  then match ts_last st with
       | None => done (TOP :: toks) (ts_canonical st)
       | Some l => if str_eqb l (lit "/") then done (NAME None :: toks) (ts_canonical st)
                   else match toks with [] => Err IndexErr | _ => done toks (ts_canonical st) end
       end
  else if str_eqb token (lit ".") then done (HERE :: toks) false
  else if str_eqb token (lit "..") then done (UP :: toks) false
  else match spec with
       | _ :: _ => bind (parse_slice spec) (fun o => done (o :: toks) (ts_canonical st))
       | [] =>
           if starts_with (lit "[") token && ts_name st
           then match toks, ts_last st with
                | _ :: rest, Some l => let l' := l ++ unescape token in
                                       Ok (TokState (NAME (Some l') :: rest) (Some l') true (ts_canonical st))
                | _, _ => Err IndexErr
                end
           else done (NAME (Some (unescape token)) :: toks) (ts_canonical st)
       end.
(* schema/paths.py:110-145: the loop *)
Fixpoint token_steps (st : tok_state) (l : list (str * str)) : res tok_state :=
  match l with [] => Ok st | x :: r => bind (token_step st x) (fun st' => token_steps st' r) end.
(* paths.py:153-169 _canonicalize; the list built is kept last first *)
Definition canon_step (n : nat) (c : list op) (o : op) : list op :=
  match o with
  | HERE => if Nat.ltb 1 n then c else o :: c
  | UP => match c with
          | [] => [o]
          | TOP :: _ => c
          | UP :: _ => o :: c
          | _ :: c' => c'
          end
  | _ => o :: c
  end.
(* schema/paths.py:153-169 *)
Definition canonicalize (l : list op) : list op := rev (fold_left (canon_step (List.length l)) l []).
(* schema/paths.py:53-55, 104-150 *)
Definition tokenize (path : str) : res (list op) :=
  bind (token_steps (TokState [] None false true) (findall path)) (fun st =>
  Ok (if ts_canonical st then rev (ts_tokens st) else canonicalize (rev (ts_tokens st)))).

(* paths.py:57-93 PathExpression.__call__: one context.  It ends with an
   element, with nothing, or with more contexts. *)
Inductive outcome := Found (e : elem) | Nothing | More (l : list (list op * elem)).
(* schema/paths.py:62-92 *)
Fixpoint run_ops (t : tree) (strict : bool) (ops : list op) (e : elem) : res outcome :=
  match ops with
  | [] => Ok (Found e)
  | o :: r =>
      match o with
      | TOP => run_ops t strict r (root t e)
      | UP => run_ops t strict r (match parent t e with Some p => if truthy t p then p else e | None => e end)
      | HERE => run_ops t strict r e
      | NAME x => match index t e x with
                  | Ok e' => run_ops t strict r e'
                  | Err err => if is_lookup err || match err with TypeErr => true | _ => false end
                               then if strict then Err LookupErr else Ok Nothing
                               else Err err
                  end
      | SLICE s => rmap (fun l => More (map (fun c => (r, c)) l)) (get_slice (children t e) s)
      end
  end.
(* schema/paths.py:61-93 *)
Fixpoint run_contexts (fuel : nat) (t : tree) (strict : bool) (cs : list (list op * elem)) (found : list elem) : res (list elem) :=
  match cs with
  | [] => Ok found
  | (ops, e) :: r =>
      match fuel with
      | O => Err OutOfFuel
      | S fuel => bind (run_ops t strict ops e) (fun o =>
                  match o with
                  | Found e' => run_contexts fuel t strict r (found ++ [e'])
                  | Nothing => run_contexts fuel t strict r found
                  | More l => run_contexts fuel t strict (r ++ l) found
                  end)
      end
  end.
(* schema/paths.py:57-93 *)
Definition evaluate (fuel : nat) (t : tree) (strict : bool) (ops : list op) (e : elem) : res (list elem) :=
  run_contexts fuel t strict [(ops, e)] [].

(* paths.py:38-48 pathexpr.  A full cache returns the builtin compile *)
Notation cache := (list (str * list op)).
(* schema/paths.py:9 *)
Definition max_cache_size : N := 1024%N.
(* schema/paths.py:44, 48 *)
Inductive compiled := Expr (ops : list op) | Builtin.
(* schema/paths.py:38-48 *)
Definition pathexpr (c : cache) (expr : str) : cache * res compiled :=
  match aget str_eqb expr c with
  | Some ops => (c, Ok (Expr ops))
  | None => match tokenize expr with
            | Err x => (c, Err x)
            | Ok ops => if N.ltb (N.of_nat (List.length c)) max_cache_size
                        then (aset str_eqb expr ops c, Ok (Expr ops))
                        else (c, Ok Builtin)
            end
  end.
(* base.py:481-536 find *)
Inductive answer := Many (l : list elem) | One (e : option elem).
(* schema/base.py:528-536 *)
Definition pick_single (single strict : bool) (l : list elem) : res answer :=
  if negb single then Ok (Many l)
  else match l with
       | [] => Ok (One None)
       | e :: r => if negb (match r with [] => true | _ => false end) && strict then Err LookupErr else Ok (One (Some e))
       end.
(* schema/base.py:526-536 *)
Definition find (fuel : nat) (c : cache) (t : tree) (e : elem) (path : str) (single strict : bool) : cache * res answer :=
  let '(c', r) := pathexpr c path in
  (c', bind r (fun x => match x with
                        | Builtin => Err TypeErr   (* compile(element, strict) *)
                        | Expr ops => bind (evaluate fuel t strict ops e) (pick_single single strict)
                        end)).
