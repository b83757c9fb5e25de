From Verif Require Import PyBase PyBaseFacts ModelUtil ProofUtil ModelPaths ModelCache SpecCache.

Definition flying (pc : look_pc) : option (str * expression) :=
  match pc with LCompiled p x | LRoom p x => Some (p, x) | _ => None end.
Definition in_room (th : look_thread) : bool := match lt_pc th with LRoom _ _ => true | _ => false end.
Definition rooms (l : list look_thread) : nat := List.length (filter in_room l).

Definition done_ok (c : list (str * expression)) (q : str * res (option expression)) : Prop :=
  match snd q with
  | Ok (Some x) => aget str_eqb (fst q) c = Some x
  | Ok None => (1024 <= N.of_nat (List.length c))%N /\ exists ops, tokenize (fst q) = Ok ops
  | Err e => tokenize (fst q) = Err e
  end.

Record look_inv (s : look_state) : Prop := {
  li_done : forall t th q, nth_error (ls_threads s) t = Some th -> In q (lt_done th) -> done_ok (ls_cache s) q;
  li_fly : forall t th p x, nth_error (ls_threads s) t = Some th -> flying (lt_pc th) = Some (p, x) ->
     tokenize p = Ok (x_ops x) /\ x_id x < ls_next s /\ forall q y, aget str_eqb q (ls_cache s) = Some y -> x_id y <> x_id x;
  li_apart : forall t u th uh p x q y, t <> u -> nth_error (ls_threads s) t = Some th -> nth_error (ls_threads s) u = Some uh ->
     flying (lt_pc th) = Some (p, x) -> flying (lt_pc uh) = Some (q, y) -> x_id x <> x_id y;
  li_cache : forall p x, aget str_eqb p (ls_cache s) = Some x -> tokenize p = Ok (x_ops x) /\ x_id x < ls_next s;
  li_inj : forall p q x y, aget str_eqb p (ls_cache s) = Some x -> aget str_eqb q (ls_cache s) = Some y -> x_id x = x_id y -> p = q;
  li_size : List.length (ls_cache s) + rooms (ls_threads s) <= N.to_nat 1023 + List.length (ls_threads s);
  li_keys : NoDup (keys (ls_cache s)) }.

Lemma look_start_threads ps t th :
  nth_error (ls_threads (look_start ps)) t = Some th -> lt_pc th = LIdle /\ lt_done th = [].
Proof. intros H. apply nth_error_In in H. apply in_map_iff in H as (p & <- & _). easy. Qed.

Lemma rooms_start ps : rooms (ls_threads (look_start ps)) = 0.
Proof. unfold rooms. cbn. induction ps; [easy|exact IHps]. Qed.

Lemma look_inv_start ps : look_inv (look_start ps).
Proof.
  split.
  - intros t th q H. apply look_start_threads in H as [_ E]. now rewrite E.
  - intros t th p x H. apply look_start_threads in H as [E _]. now rewrite E.
  - intros t u th uh p x q y _ H _. apply look_start_threads in H as [E _]. now rewrite E.
  - intros p x H. easy.
  - intros p q x y H. easy.
  - rewrite rooms_start. change (ls_cache (look_start ps)) with (@nil (str * expression)). cbn [List.length]. lia.
  - constructor.
Qed.

Lemma rooms_set t th th' l : nth_error l t = Some th ->
  rooms (set_nth t th' l) + (if in_room th then 1 else 0) = rooms l + (if in_room th' then 1 else 0).
Proof.
  unfold rooms. revert t. induction l as [|a l IH]; intros [|t] H; cbn [nth_error] in H; try easy.
  - injection H as ->. cbn [set_nth filter]. destruct (in_room th), (in_room th'); cbn [List.length]; lia.
  - specialize (IH _ H). cbn [set_nth filter]. destruct (in_room a); cbn [List.length]; lia.
Qed.
Lemma filter_length {A} (f : A -> bool) l : List.length (filter f l) <= List.length l.
Proof. induction l as [|a l IH]; cbn; [lia|]. destruct (f a); cbn; lia. Qed.
Lemma rooms_some_out t th l : nth_error l t = Some th -> in_room th = false -> rooms l < List.length l.
Proof.
  unfold rooms. revert t. induction l as [|a l IH]; intros [|t] H E; cbn [nth_error] in H; try easy.
  - injection H as ->. cbn [filter]. rewrite E. cbn [List.length].
    pose proof (filter_length in_room l). lia.
  - specialize (IH _ H E). cbn [filter]. destruct (in_room a); cbn [List.length]; lia.
Qed.

Lemma aset_absent_length {K V} (eqb : K -> K -> bool) k (v : V) l : aget eqb k l = None -> List.length (aset eqb k v l) = S (List.length l).
Proof.
  induction l as [|[a b] l IH]; cbn; [easy|]. destruct (eqb k a); [easy|]. intros H. cbn. now rewrite IH.
Qed.

(* the cache only grows *)
Definition grows (c c' : list (str * expression)) : Prop :=
  (forall p x, aget str_eqb p c = Some x -> aget str_eqb p c' = Some x) /\ List.length c <= List.length c'.
Lemma done_ok_grows c c' q : grows c c' -> done_ok c q -> done_ok c' q.
Proof.
  intros [G L]. unfold done_ok. destruct (snd q) as [[x|]|e]; [apply G| |easy]. intros [H1 H2]. split; [lia|easy].
Qed.

Ltac others Hu := apply nth_set_nth in Hu as [[-> ->]|[? Hu]].

(* a step of one thread that leaves the cache alone *)
Lemma quiet_step s t th n todo pc done : look_inv s -> nth_error (ls_threads s) t = Some th -> ls_next s <= n ->
  (forall q, In q done -> done_ok (ls_cache s) q) ->
  (forall p x, flying pc = Some (p, x) -> flying (lt_pc th) = Some (p, x) \/ tokenize p = Ok (x_ops x) /\ x_id x = ls_next s /\ ls_next s < n) ->
  (match pc with LRoom _ _ => in_room th = false /\ N.ltb (N.of_nat (List.length (ls_cache s))) 1024 = true | _ => True end) ->
  look_inv (LookState (ls_cache s) n (set_nth t (LookThread todo pc done) (ls_threads s))).
Proof.
  intros [Hd Hf Ha Hc Hi Hs Hk] E L Hdone Hfly Hroom. split; cbn [ls_cache ls_next ls_threads].
  - intros u uh q Hu Hq. others Hu; [now apply Hdone|eauto].
  - intros u uh p x Hu Hp. others Hu.
    + cbn [lt_pc] in Hp. destruct (Hfly _ _ Hp) as [H|(H1 & H2 & H3)].
      * destruct (Hf _ _ _ _ E H) as (H1 & H2 & H3). repeat split; [easy|lia|easy].
      * repeat split; [easy|lia|]. intros q y Hy. apply Hc in Hy as [_ Hy]. lia.
    + destruct (Hf _ _ _ _ Hu Hp) as (H1 & H2 & H3). repeat split; [easy|lia|easy].
  - intros u v uh vh p x q y Huv Hu Hv Hp Hq. others Hu; others Hv; [easy| | |].
    + cbn [lt_pc] in Hp. destruct (Hfly _ _ Hp) as [H1|(H1 & H2 & H3)].
      * exact (Ha _ _ _ _ _ _ _ _ Huv E Hv H1 Hq).
      * destruct (Hf _ _ _ _ Hv Hq) as (_ & H4 & _). lia.
    + cbn [lt_pc] in Hq. destruct (Hfly _ _ Hq) as [H1|(H1 & H2 & H3)].
      * exact (Ha _ _ _ _ _ _ _ _ Huv Hu E Hp H1).
      * destruct (Hf _ _ _ _ Hu Hp) as (_ & H4 & _). lia.
    + exact (Ha _ _ _ _ _ _ _ _ Huv Hu Hv Hp Hq).
  - intros p x H. apply Hc in H as [H1 H2]. split; [easy|lia].
  - exact Hi.
  - rewrite set_nth_length. pose proof (rooms_set t th (LookThread todo pc done) _ E) as R.
    destruct pc; unfold in_room in R at 2; cbn [lt_pc] in R; try lia.
    destruct Hroom as [R1 R2]. rewrite R1 in R. apply N.ltb_lt in R2. pose proof (rooms_some_out _ _ _ E R1). lia.
  - exact Hk.
Qed.

Lemma look_inv_step s t s' : look_inv s -> look_step s t = Some s' -> look_inv s'.
Proof.
  intros I H. unfold look_step in H. destruct (nth_error (ls_threads s) t) as [th|] eqn:E; [|easy].
  assert (D : forall q, In q (lt_done th) -> done_ok (ls_cache s) q) by (intros q; apply (li_done _ I _ _ _ E)).
  assert (D' : forall q q', done_ok (ls_cache s) q' -> In q (lt_done th ++ [q']) -> done_ok (ls_cache s) q).
  { intros q q' Hq [Hin|[<-|[]]]%in_app_iff; auto. }
  destruct (lt_pc th) as [|p|p x|p x] eqn:P.
  - destruct (lt_todo th) as [|p rest]; [easy|]. destruct (aget str_eqb p (ls_cache s)) as [x|] eqn:G; injection H as <-.
    + eapply quiet_step; [exact I|exact E|easy| |easy|easy]. intros q. now apply D'.
    + eapply quiet_step; [exact I|exact E|easy|exact D|easy|easy].
  - destruct (tokenize p) as [ops|e] eqn:T; injection H as <-.
    + eapply quiet_step; [exact I|exact E|lia|exact D| |easy]. intros q y [= <- <-]. right. cbn. repeat split; [easy|lia].
    + eapply quiet_step; [exact I|exact E|easy| |easy|easy]. intros q. now apply D'.
  - destruct (N.ltb (N.of_nat (List.length (ls_cache s))) max_cache_size) eqn:B; injection H as <-.
    + eapply quiet_step; [exact I|exact E|easy|exact D| |].
      * intros q y [= <- <-]. left. now rewrite P.
      * split; [unfold in_room; now rewrite P|exact B].
    + eapply quiet_step; [exact I|exact E|easy| |easy|easy]. intros q. apply D'.
      split; cbn [fst snd]; [now apply N.ltb_ge in B|]. destruct (li_fly _ I _ _ p x E) as [T _]; [now rewrite P|]. eauto.
  - destruct (aget str_eqb p (ls_cache s)) as [y|] eqn:G; injection H as <-.
    + eapply quiet_step; [exact I|exact E|easy| |easy|easy]. intros q. now apply D'.
    + destruct I as [Hd Hf Ha Hc Hi Hs Hk].
      assert (F : flying (lt_pc th) = Some (p, x)) by now rewrite P.
      destruct (Hf _ _ _ _ E F) as (F1 & F2 & F3).
      assert (Grow : grows (ls_cache s) (aset str_eqb p x (ls_cache s))).
      { split; [|rewrite aset_absent_length by easy; lia]. intros q y Hq.
        rewrite aget_aset_neq; [easy|apply str_eqb_eq|congruence]. }
      split; cbn [ls_cache ls_next ls_threads].
      * intros u uh q Hu Hq. others Hu.
        -- cbn [lt_done] in Hq. apply in_app_iff in Hq as [Hq|[<-|[]]]; [eapply done_ok_grows; eauto|].
           unfold done_ok. cbn [fst snd]. apply aget_aset_eq, str_eqb_eq.
        -- eapply done_ok_grows; eauto.
      * intros u uh q y Hu Hq. others Hu; [easy|]. destruct (Hf _ _ _ _ Hu Hq) as (H1 & H2 & H3).
        repeat split; [easy|easy|]. intros r z Hz. rewrite (aget_aset str_eqb str_eqb_eq) in Hz.
        destruct (str_eqb_spec r p) as [->|Hne]; [|eauto]. injection Hz as <-.
        eapply Ha; [|exact E|exact Hu|exact F|exact Hq]; congruence.
      * intros u v uh vh q y r z Huv Hu Hv Hq Hr. others Hu; others Hv; try easy. eauto.
      * intros q y Hq. rewrite (aget_aset str_eqb str_eqb_eq) in Hq. destruct (str_eqb_spec q p) as [->|Hne]; [|eauto].
        injection Hq as <-. easy.
      * intros q r y z Hq Hr Eq. rewrite (aget_aset str_eqb str_eqb_eq) in Hq. rewrite (aget_aset str_eqb str_eqb_eq) in Hr.
        destruct (str_eqb_spec q p) as [->|Hne], (str_eqb_spec r p) as [->|Hne'].
        -- easy.
        -- injection Hq as <-. now destruct (F3 _ _ Hr).
        -- injection Hr as <-. now destruct (F3 _ _ Hq).
        -- eauto.
      * rewrite set_nth_length, aset_absent_length by easy.
        pose proof (rooms_set t th (LookThread (lt_todo th) LIdle (lt_done th ++ [(p, Ok (Some x))])) _ E) as R.
        unfold in_room in R at 1. rewrite P in R. unfold in_room in R at 1. cbn [lt_pc] in R. lia.
      * apply (NoDup_keys_aset str_eqb str_eqb_eq). easy.
Qed.

Lemma look_inv_run s sched : look_inv s -> look_inv (look_run s sched).
Proof.
  revert s; induction sched as [|t sched IH]; intros s H; cbn [look_run]; [easy|].
  apply IH. destruct (look_step s t) eqn:E; [|easy]. eauto using look_inv_step.
Qed.
