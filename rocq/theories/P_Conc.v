From Coq Require Import ZArith List Bool String Lia.
From Verif Require Import M_Go P_Go M_Sess S_Sess P_Sess P_Sess2 M_Conc S_Conc.
Import ListNotations.
Open Scope Z_scope.

Definition beq (a b : bsess) : Prop := bs_depth a = bs_depth b /\ forall i, bs_ids a i = bs_ids b i.
Definition oeq (a b : option bsess) : Prop :=
  match a, b with Some x, Some y => beq x y | None, None => True | _, _ => False end.
Definition enters (sid : Z) (o : option bsess) : bsess :=
  match o with
  | Some b => let d := u32 (bs_depth b + 1) in {| bs_depth := d; bs_ids := fun i => if i =? slot_of d then sid else bs_ids b i |}
  | None => {| bs_depth := 0; bs_ids := fun i => if i =? 0 then sid else 0 |}
  end.
Definition leaves (o : option bsess) : option bsess :=
  match o with
  | Some b => if bs_depth b =? 0 then None else Some {| bs_depth := bs_depth b - 1; bs_ids := bs_ids b |}
  | None => None
  end.
Definition top (b : bsess) : Z := bs_ids b (slot_of (bs_depth b)).
(** the atomic map after an action / a history *)
Definition anext (m : smap) (a : action) : smap :=
  match a with Call t f sid _ pass _ => fst (enter_map m (t, f) sid pass) | Ret t f _ _ => fst (exit_map m (t, f)) end.
Definition amap (m : smap) (h : list action) : smap := fold_left anext h m.
Definition aev (m : smap) (a : action) : list event :=
  match a with
  | Call t f sid ns pass txt => match snd (enter_map m (t, f) sid pass) with Some id => [entry_event id ns txt] | None => [] end
  | Ret t f ns txt => match snd (exit_map m (t, f)) with Some id => [exit_event id ns txt] | None => [] end
  end.
Lemma ring_cons m a h : ring_map m (a :: h) = aev m a ++ ring_map (anext m a) h.
Proof. destruct a; cbn [ring_map aev anext]; [destruct (enter_map _ _ _ _)|destruct (exit_map _ _)]; reflexivity. Qed.
Lemma ring_snoc h a : forall m, ring_map m (h ++ [a]) = ring_map m h ++ aev (amap m h) a.
Proof.
  induction h as [|b h IH]; intros m.
  - cbn [app amap fold_left]. rewrite ring_cons. cbn [ring_map]. apply app_nil_r.
  - cbn [app]. rewrite !ring_cons, IH, <- app_assoc. reflexivity.
Qed.
Lemma amap_snoc m h a : amap m (h ++ [a]) = anext (amap m h) a.
Proof. unfold amap. rewrite fold_left_app. reflexivity. Qed.

Definition key (a : action) : skey := (actor a, func a).
Definition eff (a : action) (o : option bsess) : option bsess :=
  match a with Call _ _ sid _ pass _ => if pass then Some (enters sid o) else o | Ret _ _ _ _ => leaves o end.
Definition keyed (ks : list skey) (m : smap) : Prop := NoDup (keys m) /\ incl (keys m) ks.
Lemma room ks m k : Z.of_nat (List.length ks) <= 65536 -> keyed ks m -> In k ks -> aget skey_eqb k m = None ->
  Z.of_nat (List.length m) <? max_entries = true.
Proof.
  intros Hl [Hn Hi] Hk Ha. apply (aget_None _ skey_ok) in Ha. apply Z.ltb_lt. unfold max_entries.
  assert (List.length (k :: keys m) <= List.length ks)%nat.
  { apply NoDup_incl_length; [constructor; assumption|]. intros x [<-|Hx]; [exact Hk|apply Hi; exact Hx]. }
  cbn [List.length] in H. unfold keys in H. rewrite map_length in H. lia.
Qed.
Lemma keyed_aput ks m k b : keyed ks m -> In k ks -> keyed ks (aput skey_eqb k b m).
Proof.
  intros [Hn Hi] Hk. split; [apply (NoDup_aput _ skey_ok); exact Hn|]. intros x Hx. apply (keys_aput _ skey_ok) in Hx as [->|Hx]; auto.
Qed.
Lemma keyed_adel ks m k : keyed ks m -> keyed ks (adel skey_eqb k m).
Proof. intros [Hn Hi]. split; [apply NoDup_adel; exact Hn|]. intros x Hx. apply Hi. exact (keys_adel_incl _ _ _ _ Hx). Qed.
Lemma anext_get ks m a : Z.of_nat (List.length ks) <= 65536 -> keyed ks m -> In (key a) ks ->
  keyed ks (anext m a) /\ forall k, aget skey_eqb k (anext m a) = if skey_eqb k (key a) then eff a (aget skey_eqb (key a) m) else aget skey_eqb k m.
Proof.
  intros Hl Hm Hk. assert (Hid : forall o, o = aget skey_eqb (key a) m -> forall k, aget skey_eqb k m = if skey_eqb k (key a) then o else aget skey_eqb k m).
  { intros o -> k. destruct (skey_eqb k (key a)) eqn:E; [|reflexivity]. apply skey_eq in E. subst k. reflexivity. }
  destruct a as [t f sid ns pass txt|t f ns txt]; unfold key in *; cbn [anext eff actor func] in *.
  - unfold enter_map. destruct pass; cbn [negb fst]; [|split; [exact Hm|]; apply Hid; reflexivity].
    unfold add_session. destruct (aget skey_eqb (t, f) m) as [b|] eqn:Ha.
    + split; [apply keyed_aput; assumption|]. intros k. rewrite (aget_aput _ skey_ok). reflexivity.
    + rewrite (room ks m (t, f) Hl Hm Hk Ha). split; [apply keyed_aput; assumption|]. intros k. rewrite (aget_aput _ skey_ok). reflexivity.
  - unfold exit_map, get_and_del_session. destruct (aget skey_eqb (t, f) m) as [b|] eqn:Ha; cbn [fst leaves].
    + destruct (bs_depth b =? 0).
      * split; [apply keyed_adel; exact Hm|]. intros k. apply (aget_adel _ skey_ok). apply Hm.
      * split; [apply keyed_aput; assumption|]. intros k. apply (aget_aput _ skey_ok).
    + split; [exact Hm|]. apply Hid. reflexivity.
Qed.

(** Where the run of action [a] is: the atomic entry [x], the entry [y] in the map, the buffer [bf]. *)
Definition at_pc (a : action) (p : pc) (x y : option bsess) (bf : bsess) : Prop :=
  match a with
  | Call _ _ sid _ pass _ =>
      match p with
      | Out | ELook => oeq x y
      | EInc => pass = true /\ oeq x y /\ y <> None
      | ESlot => pass = true /\ exists b c, x = Some b /\ y = Some c /\ bs_depth c = u32 (bs_depth b + 1) /\ forall i, bs_ids c i = bs_ids b i
      | EBuf => pass = true /\ x = None /\ y = None
      | EBufId => pass = true /\ x = None /\ y = None /\ bs_depth bf = 0
      | EUpd => pass = true /\ x = None /\ y = None /\ bs_depth bf = 0 /\ bs_ids bf 0 = sid
      | EEmit => pass = true /\ oeq (Some (enters sid x)) y
      | _ => False
      end
  | Ret _ _ _ _ =>
      match p with
      | Out | XLook => oeq x y
      | XRead => oeq x y /\ y <> None
      | XDrop sid => oeq x y /\ exists b, x = Some b /\ sid = top b
      | XEmit sid => oeq (leaves x) y /\ exists b, x = Some b /\ sid = top b
      | _ => False
      end
  end.
Definition tinv (k : task) (A C : smap) (buf : Z -> Z -> bsess) (t : Z) : Prop :=
  match t_todo k with
  | [] => t_pc k = Out /\ forall f, oeq (aget skey_eqb (t, f) A) (aget skey_eqb (t, f) C)
  | a :: _ => at_pc a (t_pc k) (aget skey_eqb (t, func a) A) (aget skey_eqb (t, func a) C) (buf (func a) (t_cpu k)) /\
              forall f, f <> func a -> oeq (aget skey_eqb (t, f) A) (aget skey_eqb (t, f) C)
  end.
(** running [a] on a cpu *)
Definition running (k : task) (a : action) : Prop := exists l, t_todo k = a :: l /\ t_pc k <> Out.
Definition is_call (a : action) : bool := match a with Call _ _ _ _ _ _ => true | Ret _ _ _ _ => false end.
Record cinv (tasks : list Z) (prog : Z -> list action) (ks : list skey) (s : cstate) : Prop := {
  i_A : keyed ks (amap [] (c_log s));
  i_C : keyed ks (c_map s);
  i_ring : c_ring s = ring_map [] (c_log s);
  i_task : forall t, tinv (c_task s t) (amap [] (c_log s)) (c_map s) (c_buf s) t;
  i_buf : forall f cpu i, i <> 0 -> bs_ids (c_buf s f cpu) i = 0;
  i_todo : forall t a, In a (t_todo (c_task s t)) -> In a (prog t);
  i_excl : forall t u a b, t <> u -> running (c_task s t) a -> running (c_task s u) b -> is_call a = true -> is_call b = true ->
             func a = func b -> t_cpu (c_task s t) <> t_cpu (c_task s u)
}.
Lemma oeq_refl x : oeq x x.
Proof. destruct x; cbn; [split; auto|exact I]. Qed.
Lemma init_inv tasks prog ks : cinv tasks prog ks (cinit prog).
Proof.
  constructor; cbn [cinit c_log c_map c_ring c_task c_buf amap fold_left].
  - split; [constructor|intros x []].
  - split; [constructor|intros x []].
  - reflexivity.
  - intros t. unfold tinv. cbn [t_todo t_pc t_cpu]. destruct (prog t) as [|a l]; [split; [reflexivity|intros f; exact I]|].
    split; [destruct a; exact I|intros; exact I].
  - reflexivity.
  - intros t a. cbn. auto.
  - intros t u a b _ (l & _ & Hp). contradiction Hp. reflexivity.
Qed.

Lemma busy_false tasks s a cpu u b : busy tasks s a cpu = false -> In u tasks -> running (c_task s u) b -> is_call a = is_call b ->
  func a = func b -> t_cpu (c_task s u) <> cpu.
Proof.
  unfold busy. intros Hb Hu (l & Ht & Hp) Hc Hf He.
  assert (Hx : existsb (fun u => match a with Call _ f _ _ _ _ => in_entry (c_task s u) f cpu | Ret _ f _ _ => in_exit (c_task s u) f cpu end) tasks = true); [|congruence].
  apply existsb_exists. exists u. split; [exact Hu|]. destruct a as [ta fa sa na pa xa|ta fa na xa], b as [tb fb sb nb pb xb|tb fb nb xb]; cbn [is_call func] in *; try discriminate; subst.
  - unfold in_entry. rewrite Ht. rewrite !Z.eqb_refl. destruct (t_pc (c_task s u)); try reflexivity. contradiction.
  - unfold in_exit. rewrite Ht. rewrite !Z.eqb_refl. destruct (t_pc (c_task s u)); try reflexivity. contradiction.
Qed.

(** Task [t] moves; the others keep their place. *)
Lemma task_self s t k : c_task (with_task s t k) t = k.
Proof. cbn. rewrite Z.eqb_refl. reflexivity. Qed.
Lemma task_other s t k u : u <> t -> c_task (with_task s t k) u = c_task s u.
Proof. intros H. cbn. destruct (Z.eqb_spec u t); [contradiction|reflexivity]. Qed.
Lemma key_other t u f g : u <> t -> skey_eqb (u, f) (t, g) = false.
Proof. intros H. unfold skey_eqb. cbn [fst snd]. destruct (Z.eqb_spec u t); [contradiction|reflexivity]. Qed.
Lemma key_func t f g : f <> g -> skey_eqb (t, f) (t, g) = false.
Proof. intros H. unfold skey_eqb. cbn [fst snd]. destruct (Z.eqb_spec f g); [contradiction|]. apply andb_false_r. Qed.
Lemma key_self k : skey_eqb k k = true.
Proof. apply skey_eq. reflexivity. Qed.

Definition same_else (t : Z) (A A' : smap) : Prop := forall u f, u <> t -> aget skey_eqb (u, f) A' = aget skey_eqb (u, f) A.
Lemma tinv_frame k A C A' C' buf buf' u : 
  (forall f, aget skey_eqb (u, f) A' = aget skey_eqb (u, f) A) -> (forall f, aget skey_eqb (u, f) C' = aget skey_eqb (u, f) C) ->
  (forall a, running k a -> is_call a = true -> buf' (func a) (t_cpu k) = buf (func a) (t_cpu k)) ->
  tinv k A C buf u -> tinv k A' C' buf' u.
Proof.
  intros HA HC Hb. unfold tinv. destruct (t_todo k) as [|a l] eqn:Ht.
  - intros [Hp H]. split; [exact Hp|]. intros f. rewrite HA, HC. apply H.
  - intros [H1 H2]. split; [|intros f Hf; rewrite HA, HC; apply H2; exact Hf]. rewrite HA, HC.
    destruct a as [t0 f0 sid ns pass txt|]; [|exact H1]. cbn [func] in *.
    destruct (t_pc k) eqn:Hp; try exact H1.
    all: assert (Hr : running k (Call t0 f0 sid ns pass txt)) by (exists l; split; [exact Ht|congruence]);
      pose proof (Hb _ Hr eq_refl) as Hbq; cbn [func] in Hbq; rewrite Hbq; exact H1.
Qed.

(** Task [t] goes on inside its run of [a]: the log stays. *)
Lemma keep_inv tasks prog ks s t a l p C' buf' :
  cinv tasks prog ks s -> t_todo (c_task s t) = a :: l -> t_pc (c_task s t) <> Out ->
  keyed ks C' -> same_else t (c_map s) C' -> 
  (forall f, f <> func a -> aget skey_eqb (t, f) C' = aget skey_eqb (t, f) (c_map s)) ->
  (forall f cpu, f = func a /\ cpu = t_cpu (c_task s t) /\ is_call a = true \/ buf' f cpu = c_buf s f cpu) ->
  (forall f cpu i, i <> 0 -> bs_ids (buf' f cpu) i = 0) ->
  at_pc a p (aget skey_eqb (t, func a) (amap [] (c_log s))) (aget skey_eqb (t, func a) C') (buf' (func a) (t_cpu (c_task s t))) ->
  cinv tasks prog ks {| c_map := C'; c_buf := buf'; c_task := fun x => if x =? t then {| t_todo := t_todo (c_task s t); t_pc := p; t_cpu := t_cpu (c_task s t) |} else c_task s x;
                        c_ring := c_ring s; c_log := c_log s |}.
Proof.
  intros I Ht Hp HC Hse Hsf Hbuf Hz Hat. destruct I as [IA IC IR IT IB ID IE]. constructor; cbn [c_map c_buf c_task c_ring c_log]; try assumption.
  - intros u. destruct (Z.eqb_spec u t) as [->|Hne].
    + specialize (IT t). unfold tinv in *. cbn [t_todo t_pc t_cpu]. rewrite Ht in *. destruct IT as [_ H2].
      split; [exact Hat|]. intros f Hf. rewrite Hsf by exact Hf. apply H2. exact Hf.
    + apply (tinv_frame _ (amap [] (c_log s)) (c_map s) _ _ (c_buf s)); [reflexivity|intros f; apply Hse; exact Hne| |apply IT].
      intros b Hr Hc. destruct (Hbuf (func b) (t_cpu (c_task s u))) as [(Hf & Hcpu & Hca)|]; [|assumption]. exfalso.
      apply (IE u t b a Hne Hr); [exists l; split; assumption|exact Hc|exact Hca|exact Hf|exact Hcpu].
  - intros u b. destruct (Z.eqb_spec u t) as [->|Hne]; cbn [t_todo]; apply ID.
  - intros u v b c Huv Hb Hc. assert (Hrun : forall w d, running (if w =? t then {| t_todo := t_todo (c_task s t); t_pc := p; t_cpu := t_cpu (c_task s t) |} else c_task s w) d -> running (c_task s w) d).
    { intros w d. destruct (Z.eqb_spec w t) as [->|]; [|auto]. intros (l' & Hl & _). cbn [t_todo] in Hl. exists l'. split; assumption. }
    assert (Hcpu : forall w, t_cpu (if w =? t then {| t_todo := t_todo (c_task s t); t_pc := p; t_cpu := t_cpu (c_task s t) |} else c_task s w) = t_cpu (c_task s w)).
    { intros w. destruct (Z.eqb_spec w t) as [->|]; reflexivity. }
    rewrite !Hcpu. apply (IE u v b c Huv); apply Hrun; assumption.
Qed.

(** Task [t]'s action [a] is done, with effect [d] on the log (the run's end, or a miss). *)
Lemma done_inv tasks prog ks s t a l evs d :
  Z.of_nat (List.length ks) <= 65536 -> (forall t a, In a (prog t) -> actor a = t /\ In t tasks) -> (forall t a, In a (prog t) -> In (t, func a) ks) ->
  cinv tasks prog ks s -> t_todo (c_task s t) = a :: l ->
  match d with [] => evs = [] | [b] => key b = key a /\ evs = aev (amap [] (c_log s)) b | _ => False end ->
  (forall x, x = match d with b :: _ => eff b (aget skey_eqb (t, func a) (amap [] (c_log s))) | [] => aget skey_eqb (t, func a) (amap [] (c_log s)) end ->
     oeq x (aget skey_eqb (t, func a) (c_map s))) ->
  cinv tasks prog ks (finish s t evs d).
Proof.
  intros Hks Hprog Hkey I Ht Hd Ho. destruct I as [IA IC IR IT IB ID IE].
  assert (Hin : In a (prog t)) by (apply ID; rewrite Ht; left; reflexivity).
  assert (Hact : key a = (t, func a)) by (unfold key; rewrite (proj1 (Hprog t a Hin)); reflexivity).
  assert (HA : keyed ks (amap [] (c_log s ++ d)) /\ forall k, aget skey_eqb k (amap [] (c_log s ++ d)) =
     if skey_eqb k (t, func a) then match d with b :: _ => eff b (aget skey_eqb (t, func a) (amap [] (c_log s))) | [] => aget skey_eqb (t, func a) (amap [] (c_log s)) end else aget skey_eqb k (amap [] (c_log s))).
  { destruct d as [|b [|]]; [|destruct Hd as [Hkb _]|contradiction].
    - rewrite app_nil_r. split; [exact IA|]. intros k. destruct (skey_eqb k (t, func a)) eqn:E; [|reflexivity]. apply skey_eq in E. subst k. reflexivity.
    - rewrite amap_snoc. rewrite <- Hact, <- Hkb. apply anext_get; [exact Hks|exact IA|]. rewrite Hkb, Hact. apply Hkey. exact Hin. }
  destruct HA as [HA1 HA2].
  constructor; cbn [finish with_task c_map c_buf c_task c_ring c_log]; try assumption.
  - destruct d as [|b [|]]; [|destruct Hd as [_ ->]|contradiction].
    + rewrite Hd, !app_nil_r. exact IR.
    + rewrite ring_snoc, IR. reflexivity.
  - intros u. destruct (Z.eqb_spec u t) as [->|Hne].
    + specialize (IT t). unfold tinv in *. cbn [t_todo t_pc t_cpu]. rewrite Ht in *. cbn [tl]. destruct IT as [_ H2].
      assert (Hall : forall f, oeq (aget skey_eqb (t, f) (amap [] (c_log s ++ d))) (aget skey_eqb (t, f) (c_map s))).
      { intros f. rewrite HA2. destruct (Z.eq_dec f (func a)) as [->|Hf].
        - rewrite key_self. apply Ho. reflexivity.
        - rewrite key_func by exact Hf. apply H2. exact Hf. }
      destruct l as [|b l]; [split; [reflexivity|exact Hall]|]. split; [destruct b; apply Hall|intros f _; apply Hall].
    + apply (tinv_frame _ (amap [] (c_log s)) (c_map s) _ _ (c_buf s)); [|reflexivity|reflexivity|apply IT].
      intros f. rewrite HA2, key_other by exact Hne. reflexivity.
  - intros u b. destruct (Z.eqb_spec u t) as [->|Hne]; cbn [t_todo]; [|apply ID]. rewrite Ht. cbn [tl]. intros Hb. apply ID. rewrite Ht. right. exact Hb.
  - intros u v b c Huv Hb Hc.
    assert (Hrun : forall w e, running (if w =? t then {| t_todo := tl (t_todo (c_task s t)); t_pc := Out; t_cpu := t_cpu (c_task s t) |} else c_task s w) e -> w <> t /\ running (c_task s w) e).
    { intros w e. destruct (Z.eqb_spec w t) as [->|]; [|auto]. intros (l' & _ & Hp). contradiction Hp. reflexivity. }
    destruct (Hrun _ _ Hb) as [Hu Hb']. destruct (Hrun _ _ Hc) as [Hv Hc'].
    destruct (Z.eqb_spec u t); [contradiction|]. destruct (Z.eqb_spec v t); [contradiction|]. apply (IE u v b c); assumption.
Qed.

Lemma oeq_sym x y : oeq x y -> oeq y x.
Proof. destruct x, y; cbn; try tauto. intros [H1 H2]. split; [symmetry; exact H1|intros i; symmetry; apply H2]. Qed.

Lemma with_id s : {| c_map := c_map s; c_buf := c_buf s; c_task := c_task s; c_ring := c_ring s; c_log := c_log s |} = s.
Proof. destruct s. reflexivity. Qed.

(** A start. *)
Lemma start_inv tasks prog ks s t cpu a l : (forall t a, In a (prog t) -> actor a = t /\ In t tasks) -> cinv tasks prog ks s -> t_todo (c_task s t) = a :: l -> t_pc (c_task s t) = Out ->
  busy tasks s a cpu = false ->
  cinv tasks prog ks (on_cpu s t cpu (match a with Call _ _ _ _ _ _ => ELook | Ret _ _ _ _ => XLook end)).
Proof.
  intros Hprog I Ht Hp Hb. destruct I as [IA IC IR IT IB ID IE]. constructor; cbn [on_cpu with_task c_map c_buf c_task c_ring c_log]; try assumption.
  - intros u. destruct (Z.eqb_spec u t) as [->|Hne]; [|apply IT]. specialize (IT t). unfold tinv in *. cbn [t_todo t_pc t_cpu]. rewrite Ht, Hp in *.
    destruct a; exact IT.
  - intros u b. destruct (Z.eqb_spec u t) as [->|Hne]; cbn [t_todo]; apply ID.
  - assert (Hex : forall w d c, w <> t -> running (c_task s w) d -> func d = func a -> is_call d = true -> is_call c = true -> func c = func a ->
       running {| t_todo := t_todo (c_task s t); t_pc := match a with Call _ _ _ _ _ _ => ELook | Ret _ _ _ _ => XLook end; t_cpu := cpu |} c -> t_cpu (c_task s w) <> cpu).
    { intros w d c Hw Hr Hf Hd Hc Hcf (l' & Hl & _). cbn [t_todo] in Hl. rewrite Ht in Hl. injection Hl as <- _.
      apply (busy_false tasks s a cpu w d Hb); [|exact Hr|congruence|symmetry; exact Hf].
      destruct Hr as (l2 & Hl2 & _). apply (Hprog w d). apply ID. rewrite Hl2. left. reflexivity. }
    intros u v b c Huv Hrb Hrc Hcb Hcc Hf. destruct (Z.eqb_spec u t) as [->|Hu], (Z.eqb_spec v t) as [->|Hv]; cbn [t_cpu].
    + contradiction.
    + assert (b = a). { destruct Hrb as (l' & Hl & _). cbn [t_todo] in Hl. rewrite Ht in Hl. injection Hl as <- _. reflexivity. } subst b.
      intros He. apply (Hex v c a Hv Hrc); auto.
    + assert (c = a). { destruct Hrc as (l' & Hl & _). cbn [t_todo] in Hl. rewrite Ht in Hl. injection Hl as <- _. reflexivity. } subst c.
      apply (Hex u b a Hu Hrb); auto.
    + apply (IE u v b c); assumption.
Qed.

Lemma same_aput t f b C : same_else t C (aput skey_eqb (t, f) b C).
Proof. intros u g Hu. rewrite (aget_aput _ skey_ok). rewrite key_other by exact Hu. reflexivity. Qed.
Lemma same_adel t f C : NoDup (keys C) -> same_else t C (adel skey_eqb (t, f) C).
Proof. intros Hn u g Hu. rewrite (aget_adel _ skey_ok) by exact Hn. rewrite key_other by exact Hu. reflexivity. Qed.

Lemma access_inv tasks prog ks s t :
  Z.of_nat (List.length ks) <= 65536 -> (forall t a, In a (prog t) -> actor a = t /\ In t tasks) -> (forall t a, In a (prog t) -> In (t, func a) ks) ->
  cinv tasks prog ks s -> t_pc (c_task s t) <> Out -> exists s', access s t = Some s' /\ cinv tasks prog ks s'.
Proof.
  intros Hks Hprog Hkey I Hp. pose proof I as I0. destruct I as [IA IC IR IT IB ID IE]. pose proof (IT t) as Hti. unfold tinv in Hti.
  unfold access. destruct (t_todo (c_task s t)) as [|a l] eqn:Ht; [destruct Hti as [Ho _]; contradiction|].
  destruct Hti as [Hat Hoth]. assert (Hin : In a (prog t)) by (apply ID; rewrite Ht; left; reflexivity).
  pose proof (proj1 (Hprog t a Hin)) as Hact. pose proof (Hkey t a Hin) as Hk.
  destruct a as [t0 f sid ns pass txt|t0 f ns txt]; cbn [actor func] in *; subst t0.
  - destruct (t_pc (c_task s t)) eqn:Hpc; try contradiction; cbn [at_pc] in Hat.
    + (* ELook *) destruct pass; cbn [negb].
      * eexists. split; [reflexivity|]. unfold goto, with_task. rewrite Ht, <- Ht.
        apply (keep_inv tasks prog ks s t (Call t f sid ns true txt) l); auto; try congruence.
        cbn [func at_pc]. destruct (aget skey_eqb (t, f) (c_map s)) as [b|] eqn:E; cbn [at_pc].
        { split; [reflexivity|]. split; [exact Hat|discriminate]. }
        { destruct (aget skey_eqb (t, f) (amap [] (c_log s))); [contradiction|]. auto. }
      * eexists. split; [reflexivity|]. apply (done_inv tasks prog ks s t (Call t f sid ns false txt) l); auto.
        intros x ->. exact Hat.
    + (* EInc *) destruct Hat as (-> & Ho & Hn). destruct (aget skey_eqb (t, f) (c_map s)) as [b|] eqn:E; [|contradiction].
      eexists. split; [reflexivity|]. unfold goto, with_map, with_task. cbn [c_map c_buf c_task c_ring c_log]. rewrite Ht, <- Ht.
      apply (keep_inv tasks prog ks s t (Call t f sid ns true txt) l); auto; try congruence.
      * apply keyed_aput; assumption.
      * apply same_aput.
      * intros g Hg. rewrite (aget_aput _ skey_ok). rewrite key_func by exact Hg. reflexivity.
      * cbn [func at_pc]. split; [reflexivity|]. destruct (aget skey_eqb (t, f) (amap [] (c_log s))) as [c|]; [|contradiction].
        exists c. eexists. split; [reflexivity|]. rewrite (aget_aput _ skey_ok), key_self. split; [reflexivity|]. cbn [bs_depth bs_ids].
        destruct Ho as [Hd Hi]. split; [rewrite Hd; reflexivity|intros i; symmetry; apply Hi].
    + (* ESlot *) destruct Hat as (-> & b & c & Hx & Hy & Hd & Hi). rewrite Hy.
      eexists. split; [reflexivity|]. unfold goto, with_map, with_task. cbn [c_map c_buf c_task c_ring c_log]. rewrite Ht, <- Ht.
      apply (keep_inv tasks prog ks s t (Call t f sid ns true txt) l); auto; try congruence.
      * apply keyed_aput; assumption.
      * apply same_aput.
      * intros g Hg. rewrite (aget_aput _ skey_ok). rewrite key_func by exact Hg. reflexivity.
      * cbn [func at_pc]. split; [reflexivity|]. rewrite (aget_aput _ skey_ok), key_self, Hx. cbn [oeq enters]. split; cbn [bs_depth bs_ids]; [symmetry; exact Hd|].
        intros i. rewrite Hd, Hi. reflexivity.
    + (* EBuf *) destruct Hat as (-> & Hx & Hy). eexists. split; [reflexivity|]. unfold goto, with_buf, with_task. cbn [c_map c_buf c_task c_ring c_log]. rewrite Ht, <- Ht.
      apply (keep_inv tasks prog ks s t (Call t f sid ns true txt) l); auto; try congruence.
      * intros g cpu. destruct (Z.eqb_spec g f), (Z.eqb_spec cpu (t_cpu (c_task s t))); cbn [andb]; auto.
      * intros g cpu i Hi. destruct ((g =? f) && _); [cbn [bs_ids]|]; apply IB; exact Hi.
      * cbn [func at_pc]. rewrite !Z.eqb_refl. cbn [andb bs_depth]. auto.
    + (* EBufId *) destruct Hat as (-> & Hx & Hy & Hd). eexists. split; [reflexivity|]. unfold goto, with_buf, with_task. cbn [c_map c_buf c_task c_ring c_log]. rewrite Ht, <- Ht.
      apply (keep_inv tasks prog ks s t (Call t f sid ns true txt) l); auto; try congruence.
      * intros g cpu. destruct (Z.eqb_spec g f), (Z.eqb_spec cpu (t_cpu (c_task s t))); cbn [andb]; auto.
      * intros g cpu i Hi. destruct ((g =? f) && _); [cbn [bs_ids]|apply IB; exact Hi]. destruct (Z.eqb_spec i 0); [contradiction|apply IB; exact Hi].
      * cbn [func at_pc]. rewrite !Z.eqb_refl. cbn [andb bs_depth bs_ids]. rewrite Z.eqb_refl. auto.
    + (* EUpd *) destruct Hat as (-> & Hx & Hy & Hd & Hs). rewrite (room ks (c_map s) (t, f) Hks IC Hk Hy). eexists. split; [reflexivity|].
      unfold goto, with_map, with_task. cbn [c_map c_buf c_task c_ring c_log]. rewrite Ht, <- Ht.
      apply (keep_inv tasks prog ks s t (Call t f sid ns true txt) l); auto; try congruence.
      * apply keyed_aput; assumption.
      * apply same_aput.
      * intros g Hg. rewrite (aget_aput _ skey_ok). rewrite key_func by exact Hg. reflexivity.
      * cbn [func at_pc]. split; [reflexivity|]. rewrite (aget_aput _ skey_ok), key_self, Hx. cbn [oeq enters]. split; cbn [bs_depth bs_ids]; [symmetry; exact Hd|].
        intros i. destruct (Z.eqb_spec i 0) as [->|Hi]; [symmetry; exact Hs|symmetry; apply IB; exact Hi].
    + (* EEmit *) destruct Hat as (-> & Ho). eexists. split; [reflexivity|]. apply (done_inv tasks prog ks s t (Call t f sid ns true txt) l); auto.
      intros x ->. exact Ho.
  - destruct (t_pc (c_task s t)) eqn:Hpc; try contradiction; cbn [at_pc] in Hat.
    + (* XLook *) destruct (aget skey_eqb (t, f) (c_map s)) as [b|] eqn:E.
      * eexists. split; [reflexivity|]. unfold goto, with_task. rewrite Ht, <- Ht.
        apply (keep_inv tasks prog ks s t (Ret t f ns txt) l); auto; try congruence.
        cbn [func at_pc]. rewrite E. split; [exact Hat|discriminate].
      * eexists. split; [reflexivity|]. destruct (aget skey_eqb (t, f) (amap [] (c_log s))) as [x|] eqn:EA; [contradiction|].
        apply (done_inv tasks prog ks s t (Ret t f ns txt) l); auto.
        { split; [reflexivity|]. cbn [aev]. unfold exit_map, get_and_del_session. rewrite EA. reflexivity. }
        intros x ->. cbn [func eff]. rewrite EA, E. exact I.
    + (* XRead *) destruct Hat as [Ho Hn]. destruct (aget skey_eqb (t, f) (c_map s)) as [b|] eqn:E; [|contradiction].
      eexists. split; [reflexivity|]. unfold goto, with_task. rewrite Ht, <- Ht.
      apply (keep_inv tasks prog ks s t (Ret t f ns txt) l); auto; try congruence.
      * cbn [func at_pc]. rewrite E. split; [exact Ho|]. destruct (aget skey_eqb (t, f) (amap [] (c_log s))) as [x|]; [|contradiction].
        exists x. split; [reflexivity|]. destruct Ho as [Hd Hi]. unfold top. rewrite Hd, Hi. reflexivity.
    + (* XDrop *) destruct Hat as (Ho & b & Hx & Hsid). rewrite Hx in Ho. destruct (aget skey_eqb (t, f) (c_map s)) as [c|] eqn:E; [|contradiction]. destruct Ho as [Hd Hi].
      eexists. split; [reflexivity|]. unfold goto, with_map, with_task. cbn [c_map c_buf c_task c_ring c_log]. rewrite Ht, <- Ht.
      apply (keep_inv tasks prog ks s t (Ret t f ns txt) l); auto; try congruence.
      * destruct (bs_depth c =? 0); [apply keyed_adel; exact IC|apply keyed_aput; assumption].
      * destruct (bs_depth c =? 0); [apply same_adel; apply IC|apply same_aput].
      * intros g Hg. destruct (bs_depth c =? 0); [rewrite (aget_adel _ skey_ok) by apply IC|rewrite (aget_aput _ skey_ok)]; cbn [func] in Hg; rewrite key_func by exact Hg; reflexivity.
      * cbn [func at_pc]. split; [|exists b; auto]. rewrite Hx. cbn [leaves]. rewrite Hd. destruct (bs_depth c =? 0).
        { rewrite (aget_adel _ skey_ok) by apply IC. rewrite key_self. exact I. }
        { rewrite (aget_aput _ skey_ok), key_self. split; cbn [bs_depth bs_ids]; [reflexivity|exact Hi]. }
    + (* XEmit *) destruct Hat as (Ho & b & Hx & Hsid). eexists. split; [reflexivity|]. apply (done_inv tasks prog ks s t (Ret t f ns txt) l); auto.
      * split; [reflexivity|]. cbn [aev]. unfold exit_map, get_and_del_session. rewrite Hx. cbn [snd]. unfold top in Hsid. rewrite <- Hsid. destruct (sid =? 0); reflexivity.
      * intros x ->. cbn [eff func]. exact Ho.
Qed.

Definition wl (tasks : list Z) (prog : Z -> list action) (ks : list skey) : Prop :=
  Z.of_nat (List.length ks) < 65536 /\ (forall t a, In a (prog t) -> actor a = t /\ In t tasks) /\ (forall t a, In a (prog t) -> In (t, func a) ks).
Lemma pc_oeq a x y bf : at_pc a Out x y bf -> oeq x y.
Proof. destruct a; auto. Qed.
Lemma step_inv tasks prog ks s l s' : wl tasks prog ks -> cinv tasks prog ks s -> cstep tasks s l = Some s' -> cinv tasks prog ks s'.
Proof.
  intros (Hks & Hprog & Hkey) I. destruct l as [t cpu|t|t cpu]; cbn [cstep].
  - destruct (t_todo (c_task s t)) as [|a l] eqn:Ht; [discriminate|]. destruct (t_pc (c_task s t)) eqn:Hp; try discriminate.
    destruct (busy tasks s a cpu) eqn:Hb; [discriminate|]. intros [= <-]. exact (start_inv tasks prog ks s t cpu a l Hprog I Ht Hp Hb).
  - intros Ha. assert (Hp : t_pc (c_task s t) <> Out).
    { intros Hp. unfold access in Ha. rewrite Hp in Ha. destruct (t_todo (c_task s t)) as [|[] ?]; discriminate. }
    destruct (access_inv tasks prog ks s t (Z.lt_le_incl _ _ Hks) Hprog Hkey I Hp) as (s2 & E & I2). congruence.
  - destruct (t_todo (c_task s t)) as [|a l] eqn:Ht; [discriminate|]. destruct (t_pc (c_task s t)) eqn:Hp; try discriminate.
    destruct (negb (busy tasks s a cpu)); [discriminate|]. intros [= <-].
    apply (done_inv tasks prog ks s t a l); try assumption; try exact (Z.lt_le_incl _ _ Hks).
    + destruct a; [split; reflexivity|reflexivity].
    + pose proof (i_task _ _ _ _ I t) as Hti. unfold tinv in Hti. rewrite Ht, Hp in Hti. destruct Hti as [Hat _]. apply pc_oeq in Hat.
      intros x ->. destruct a; exact Hat.
Qed.
Lemma run_inv tasks prog ks ls : wl tasks prog ks -> forall s s', cinv tasks prog ks s -> crun tasks s ls = Some s' -> cinv tasks prog ks s'.
Proof.
  intros W. induction ls as [|l ls IH]; intros s s' I; cbn [crun]; [intros [= <-]; exact I|].
  destruct (cstep tasks s l) as [s1|] eqn:E; [|discriminate]. apply IH. exact (step_inv _ _ _ _ _ _ W I E).
Qed.

(** What is logged. *)
Lemma of_task_app t a b : of_task t (a ++ b) = of_task t a ++ of_task t b.
Proof. apply filter_app. Qed.
Definition progress (prog : Z -> list action) (s : cstate) : Prop :=
  forall t, (forall a, In a (t_todo (c_task s t)) -> actor a = t) /\ exists pre, prog t = pre ++ t_todo (c_task s t) /\ seen pre (of_task t (c_log s)).
Definition moved (s s' : cstate) (t : Z) (d : list action) : Prop :=
  c_log s' = c_log s ++ d /\ (forall u, u <> t -> t_todo (c_task s' u) = t_todo (c_task s u)) /\
  (d = [] /\ t_todo (c_task s' t) = t_todo (c_task s t) \/ exists a, t_todo (c_task s t) = a :: t_todo (c_task s' t) /\
     (d = [a] \/ match a with Call u f sid ns _ txt => d = [Call u f sid ns false txt] | Ret _ _ _ _ => d = [] end)).
Lemma moved_task s t k m bf r : t_todo k = t_todo (c_task s t) -> moved s {| c_map := m; c_buf := bf; c_task := fun x => if x =? t then k else c_task s x; c_ring := r; c_log := c_log s |} t [].
Proof.
  intros H. split; [symmetry; apply app_nil_r|]. cbn [c_task]. split.
  - intros u Hu. destruct (Z.eqb_spec u t); [contradiction|reflexivity].
  - left. rewrite Z.eqb_refl. auto.
Qed.
Lemma moved_done s t evs a l d : t_todo (c_task s t) = a :: l -> (d = [a] \/ match a with Call u f sid ns _ txt => d = [Call u f sid ns false txt] | Ret _ _ _ _ => d = [] end) ->
  moved s (finish s t evs d) t d.
Proof.
  intros Ht Hd. split; [reflexivity|]. cbn [finish with_task c_task]. split.
  - intros u Hu. destruct (Z.eqb_spec u t); [contradiction|reflexivity].
  - right. exists a. rewrite Z.eqb_refl. cbn [t_todo]. rewrite Ht. auto.
Qed.
Definition mover (l : clabel) : Z := match l with LStart u _ => u | LAccess u => u | LMissed u _ => u end.
Lemma step_moved tasks s l s' : cstep tasks s l = Some s' -> exists d, moved s s' (mover l) d /\
  ((forall t cpu, l <> LMissed t cpu) -> d = [] /\ t_todo (c_task s' (mover l)) = t_todo (c_task s (mover l)) \/ exists a, d = [a] /\ t_todo (c_task s (mover l)) = a :: t_todo (c_task s' (mover l))).
Proof.
  destruct l as [t cpu|t|t cpu]; cbn [cstep mover].
  - destruct (t_todo (c_task s t)) as [|a l] eqn:Ht; [discriminate|]. destruct (t_pc (c_task s t)); try discriminate.
    destruct (busy tasks s a cpu); [discriminate|]. intros [= <-]. exists []. split; [apply moved_task; cbn [t_todo]; reflexivity|].
    intros _. left. split; [reflexivity|]. cbn [on_cpu with_task c_task]. rewrite Z.eqb_refl. cbn [t_todo]. exact Ht.
  - unfold access. destruct (t_todo (c_task s t)) as [|a l] eqn:Ht; [discriminate|].
    assert (Hm : forall p m bf r, exists d, moved s (goto {| c_map := m; c_buf := bf; c_task := c_task s; c_ring := r; c_log := c_log s |} t p) t d /\
       ((forall t0 cpu, LAccess t <> LMissed t0 cpu) -> d = [] /\ t_todo (c_task (goto {| c_map := m; c_buf := bf; c_task := c_task s; c_ring := r; c_log := c_log s |} t p) t) = a :: l \/
         exists b, d = [b] /\ a :: l = b :: t_todo (c_task (goto {| c_map := m; c_buf := bf; c_task := c_task s; c_ring := r; c_log := c_log s |} t p) t))).
    { intros p m bf r. exists []. split; [exact (moved_task s t {| t_todo := t_todo (c_task s t); t_pc := p; t_cpu := t_cpu (c_task s t) |} m bf r eq_refl)|]. intros _. left. split; [reflexivity|].
      cbn [goto with_task c_task]. rewrite Z.eqb_refl. cbn [t_todo]. exact Ht. }
    assert (Hf : forall evs, exists d, moved s (finish s t evs [a]) t d /\ ((forall t0 cpu, LAccess t <> LMissed t0 cpu) -> d = [] /\ t_todo (c_task (finish s t evs [a]) t) = a :: l \/ exists b, d = [b] /\ a :: l = b :: t_todo (c_task (finish s t evs [a]) t))).
    { intros evs. exists [a]. split; [apply (moved_done s t evs a l); [exact Ht|left; reflexivity]|]. intros _. right. exists a. split; [reflexivity|].
      cbn [finish with_task c_task]. rewrite Z.eqb_refl. cbn [t_todo]. rewrite Ht. reflexivity. }
    destruct a as [u f sid ns pass txt|u f ns txt]; destruct (t_pc (c_task s t)) eqn:Hp; try discriminate.
    all: repeat match goal with |- context [if ?b then _ else _] => destruct b | |- context [match aget ?e ?k ?m with _ => _ end] => destruct (aget e k m) end; try discriminate.
    all: intros [= <-]; first [apply Hf | apply (Hm _ (c_map s) (c_buf s) (c_ring s)) | apply Hm].
  - destruct (t_todo (c_task s t)) as [|a l] eqn:Ht; [discriminate|]. destruct (t_pc (c_task s t)); try discriminate.
    destruct (negb (busy tasks s a cpu)); [discriminate|]. intros [= <-]. eexists. split; [apply (moved_done s t _ a l); [exact Ht|right; destruct a; reflexivity]|].
    intros Hn. contradiction (Hn t cpu). reflexivity.
Qed.
