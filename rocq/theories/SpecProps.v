(* Specification of property inheritance. *)
From Verif Require Import PyBase ModelUtil ModelSeq ModelProps.

Section Views.
Context {V : Type}.
Notation wd := (world V).

(* where class c keeps what it says under descriptor d *)
Definition addr (w : wd) (d c : nat) : option nat :=
  match w_map w d c with
  | Some r => Some r
  | None => match w_own w c with Some d' => if Nat.eqb d' d then Some (w_init w d) else None | None => None end
  end.
(* what class c itself says about k: a value, a deletion, or nothing *)
Definition mention (w : wd) (d c : nat) (k : str) : option (slot V) :=
  match addr w d c with Some r => aget str_eqb k (w_dict w r) | None => None end.
(* the classes consulted: the MRO up to the one that declares d *)
Fixpoint upto (own : nat -> option nat) (d : nat) (mro : list nat) : list nat :=
  match mro with
  | [] => []
  | c :: r => c :: match own c with
                   | Some d' => if Nat.eqb d' d then [] else upto own d r
                   | None => upto own d r
                   end
  end.
Fixpoint first_some {A B} (f : A -> option B) (l : list A) : option B :=
  match l with [] => None | a :: r => match f a with Some b => Some b | None => first_some f r end end.
(* what Class.properties shows: the nearest mention wins *)
Definition shown (o : option (slot V)) : option V := match o with Some (Val v) => Some v | _ => None end.
Definition class_says (w : wd) (d c : nat) (k : str) : option (slot V) :=
  first_some (fun b => mention w d b k) (upto (w_own w) d (w_mro w c)).
Definition class_sees (w : wd) (c : nat) (k : str) : option V :=
  match desc w c with Some d => shown (class_says w d c k) | None => None end.
(* what instance i itself says, and what it shows *)
Definition own_says (w : wd) (i : nat) (k : str) : option (slot V) :=
  match w_local w i with Storage l => aget str_eqb k l | _ => None end.
Definition whole (w : wd) (i : nat) : option (list (str * V)) :=
  match w_local w i with Whole l => Some l | _ => None end.
Definition inst_sees (w : wd) (i : nat) (k : str) : option V :=
  match whole w i with
  | Some l => aget str_eqb k l
  | None => match own_says w i k with
            | Some s => shown (Some s)
            | None => class_sees w (w_cls w i) k
            end
  end.

(* no two classes share a dict of properties *)
Record sound (w : wd) : Prop := Sound {
  so_inj : forall d c d' c' r, addr w d c = Some r -> addr w d' c' = Some r -> d = d' /\ c = c';
  so_lt : forall d c r, addr w d c = Some r -> r < w_next w;
  so_dict : forall r, NoDup (keys (w_dict w r));
  so_local : forall i l, w_local w i = Storage l -> NoDup (keys l);
  so_whole : forall i l, w_local w i = Whole l -> NoDup (keys l) }.

Definition same_classes (w w' : wd) : Prop :=
  w_mro w' = w_mro w /\ w_own w' = w_own w /\ w_cls w' = w_cls w.
(* only what class c says under d differs *)
Definition class_changed (w w' : wd) (d c : nat) (says : str -> option (slot V)) : Prop :=
  same_classes w w'
  /\ (forall i, whole w' i = whole w i /\ forall k, own_says w' i k = own_says w i k)
  /\ (forall k, mention w' d c k = says k)
  /\ forall d' c' k, (d', c') <> (d, c) -> mention w' d' c' k = mention w d' c' k.
(* only what instance i says differs *)
Definition inst_changed (w w' : wd) (i : nat) (says : str -> option (slot V)) : Prop :=
  same_classes w w' /\ (forall d c k, mention w' d c k = mention w d c k)
  /\ whole w' i = None /\ (forall k, own_says w' i k = says k)
  /\ forall j, j <> i -> w_local w' j = w_local w j.

Definition upd {A} (f : str -> A) (k : str) (v : A) : str -> A := fun k' => if str_eqb k' k then v else f k'.
(* the last value given for k *)
Fixpoint last_for (k : str) (l : list (str * V)) : option V :=
  match l with
  | [] => None
  | (k', v) :: r => match last_for k r with
                    | Some v' => Some v'
                    | None => if str_eqb k k' then Some v else None
                    end
  end.
(* what a class (or instance) says after a call; for an instance [base] is what
   its class shows *)
Definition after (sees : str -> option V) (says : str -> option (slot V)) (o : pop V) : str -> option (slot V) :=
  match o with
  | PSet k v => upd says k (Some (Val v))
  | PDel k | PPop k _ => match sees k with Some _ => upd says k (Some Deleted) | None => says end
  | PUpdate l => fun k => match last_for k l with Some v => Some (Val v) | None => says k end
  | _ => says
  end.
Definition class_after (sees : str -> option V) (says : str -> option (slot V)) (o : pop V) : str -> option (slot V) :=
  match o with
  | PClear => fun k => match sees k with Some _ => Some Deleted | None => says k end
  | PSetdefault k v => match says k with Some _ => says | None => upd says k (Some (Val v)) end
  | _ => after sees says o
  end.
Definition inst_after (base sees : str -> option V) (says : str -> option (slot V)) (o : pop V) : str -> option (slot V) :=
  match o with
  | PClear => fun k => match base k with Some _ => Some Deleted | None => None end
  | PSetdefault k v => match sees k, says k with None, None => upd says k (Some (Val v)) | _, _ => says end
  | _ => after sees says o
  end.
(* what a call answers *)
Definition answers (sees : str -> option V) (o : pop V) (r : res (pout V)) : Prop :=
  match o with
  | PGet k => r = match sees k with Some v => Ok (POSlot (Val v)) | None => Err KeyErr end
  | PGetOr k v => r = Ok (POSlot (Val (match sees k with Some v' => v' | None => v end)))
  | PSet _ _ | PUpdate _ | PClear => r = Ok PONone
  | PDel k => r = match sees k with Some _ => Ok PONone | None => Err KeyErr end
  | PPop k d => r = match sees k, d with
                    | Some v, _ | None, Some v => Ok (POSlot (Val v))
                    | None, None => Err KeyErr
                    end
  | PPopItem => r = Err NotImplErr
  | PContains k => r = Ok (POBool (match sees k with Some _ => true | None => false end))
  | PItems => exists l, r = Ok (POItems l) /\ NoDup (keys l) /\ forall k v, In (k, v) l <-> sees k = Some v
  | PBool => exists b, r = Ok (POBool b) /\ (b = true <-> exists k v, sees k = Some v)
  | PSetdefault _ _ => True
  end.
Definition class_answers (sees : str -> option V) (says : str -> option (slot V)) (o : pop V) (r : res (pout V)) : Prop :=
  match o with
  | PSetdefault k v => r = Ok (POSlot (match says k with Some s => s | None => Val v end))
  | _ => answers sees o r
  end.
Definition inst_answers (sees : str -> option V) (says : str -> option (slot V)) (o : pop V) (r : res (pout V)) : Prop :=
  match o with
  | PSetdefault k v => r = Ok (POSlot (match sees k, says k with
                                       | Some v', _ => Val v' | None, Some s => s | None, None => Val v end))
  | _ => answers sees o r
  end.
(* calls on a dict assigned wholesale: what it shows after a call answering r *)
Definition dict_after (sees sees' : str -> option V) (o : pop V) (r : res (pout V)) : Prop :=
  match o with
  | PSet k v => forall k', sees' k' = upd sees k (Some v) k'
  | PDel k | PPop k _ => forall k', sees' k' = upd sees k None k'
  | PClear => forall k', sees' k' = None
  | PUpdate l => forall k', sees' k' = match last_for k' l with Some v => Some v | None => sees k' end
  | PSetdefault k v => forall k', sees' k' = upd sees k (Some match sees k with Some v' => v' | None => v end) k'
  | PPopItem => (r = Err KeyErr /\ forall k, sees k = None /\ sees' k = None)
                \/ exists k v, r = Ok (POItems [(k, v)]) /\ sees k = Some v /\ forall k', sees' k' = upd sees k None k'
  | _ => forall k', sees' k' = sees k'
  end.
Definition dict_answers (sees : str -> option V) (o : pop V) (r : res (pout V)) : Prop :=
  match o with
  | PSetdefault k v => r = Ok (POSlot (Val (match sees k with Some v' => v' | None => v end)))
  | PPopItem => True
  | _ => answers sees o r
  end.
(* what a class or instance shows after a call made on it *)
Definition sees_after (sees : str -> option V) (says : str -> option (slot V)) (o : pop V) : str -> option V :=
  match o with
  | PSet k v => upd sees k (Some v)
  | PDel k | PPop k _ => upd sees k None
  | PClear => fun _ => None
  | PUpdate l => fun k => match last_for k l with Some v => Some v | None => sees k end
  | PSetdefault k v => match says k with Some _ => sees | None => upd sees k (Some v) end
  | _ => sees
  end.
Definition run_world (w : wd) (os : list (wop V)) : wd := fold_left (fun w o => fst (world_step w o)) os w.
(* wholesale assignments are of dicts *)
Definition proper (o : wop V) : Prop := match o with Assign _ l => NoDup (keys l) | _ => True end.
End Views.

(* A sample: 0 declares the properties object 0; 1 and 3 derive from 0, 2 from 1;
   4 declares another.  Instances 0 and 1 are of class 2, 2 of class 3. *)
Definition sample_world : world nat :=
  World (fun c => match c with 1 => [1; 0] | 2 => [2; 1; 0] | 3 => [3; 0] | 4 => [4] | _ => [c] end)
        (fun c => match c with 0 => Some 0 | 4 => Some 1 | _ => None end)
        (fun d => d) (fun _ _ => None) 2
        (fun r => match r with 0 => [(lit "a", Val 1); (lit "b", Val 2)] | 1 => [(lit "a", Val 9)] | _ => [] end)
        (fun i => match i with 0 => 2 | 1 => 2 | 2 => 3 | _ => 4 end) (fun _ => NoLocal).
(* the same object declared by class 0 and by the unrelated class 5 *)
Definition shared_world : world nat :=
  World (fun c => [c]) (fun c => match c with 0 => Some 0 | 5 => Some 0 | _ => None end)
        (fun d => d) (fun _ _ => None) 1 (fun _ => [(lit "a", Val 1)]) (fun i => i) (fun _ => NoLocal).
Definition sample_history : list (wop nat) :=
  [OnClass 1 (PSet (lit "a") 5); OnInst 0 (PDel (lit "b")); OnClass 3 PClear; OnInst 1 (PUpdate [(lit "c", 7)]);
   OnInst 2 (PSetdefault (lit "a") 3); Assign 3 [(lit "z", 0)]; OnInst 3 (PPop (lit "z") None)].
