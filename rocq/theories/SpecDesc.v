(* What computed attributes, views and deferred modules are expected to do. *)
From Verif Require Import PyBase ModelDesc.
From Coq Require Import Sorted.

(* what an attribute was last assigned, if not deleted since *)
Definition after {V} (s : option V) (op : attr_op V) : option V :=
  match op with ARead => s | AAssign v => Some v | ADelete => None end.
(* how many reads found nothing assigned *)
Fixpoint misses {V} (s : option V) (ops : list (attr_op V)) : nat :=
  match ops with
  | [] => 0
  | op :: ops' => (match op, s with ARead, None => 1 | _, _ => 0 end) + misses (after s op) ops'
  end.
(* the first one that is given *)
Fixpoint first_given {A} (l : list (option A)) (default : A) : A :=
  match l with [] => default | Some x :: _ => x | None :: l' => first_given l' default end.

(* ---- deferred modules ---- *)
(* the last submodule that lists a member *)
Fixpoint owner (table : list (str * list str)) (k : str) : option str :=
  match table with
  | [] => None
  | (s, ms) :: table' =>
      match owner table' k with
      | Some o => Some o
      | None => if existsb (str_eqb k) ms then Some s else None
      end
  end.
(* no submodule is also listed as a member *)
Definition tidy (table : list (str * list str)) : Prop := forall s, In s (map fst table) -> owner table s = None.
Section Expected.
Variable T : Type.
Variables (load : str -> res T) (attr : T -> str -> res T) (inherited : str -> option T).
Variables (start : list (str * T)) (table : list (str * list str)).
(* what is there from the beginning, else the submodule *)
Definition module (s : str) : res T :=
  match aget str_eqb s start with
  | Some v => Ok v
  | None => match inherited s with Some v => Ok v | None => load s end
  end.
(* what reading an attribute should give *)
Definition expected (k : str) : res T :=
  match aget str_eqb k start with
  | Some v => Ok v
  | None =>
      match inherited k with
      | Some v => Ok v
      | None =>
          match owner table k with
          | Some s => bind (module s) (fun m => attr m k)
          | None => if existsb (str_eqb k) (map fst table) then load k else Err AttributeErr
          end
      end
  end.
End Expected.
Arguments module {T}. Arguments expected {T}.
(* alphabetical order of texts *)
Inductive before : str -> str -> Prop :=
| before_nil x b : before [] (x :: b)
| before_less x a y b : (x < y)%N -> before (x :: a) (y :: b)
| before_same x a b : before a b -> before (x :: a) (x :: b).
(* the attributes a deferred module has from the beginning *)
Definition initial {T} (basics attributes late : list (str * T)) : list (str * T) :=
  fold_left (fun m kv => aset str_eqb (fst kv) (snd kv) m) (attributes ++ late) basics.
