(** * Proofs for M_OutArg: which bytes an output function asks for *)
From Coq Require Import ZArith List Bool Lia String.
From Verif Require Import M_Go M_Ebpf M_CcNum M_Cc M_Bytes M_FnArgs S_FnArgs S_CSem S_CSup S_Null M_OutArg S_OutArg.
From Verif Require Import P_OutArg3.
Import ListNotations.
Open Scope Z_scope.

(** the type of the operand of the function *)
Definition operand_type (K : cfg) (e : expr) : option ty :=
  match evaluate K (subject e) eval_init with ROk v _ => v_btf v | _ => None end.

Lemma mat_ty K s v w s' : materialize K s v = ROk w s' -> v_btf w = v_btf v /\ v_mem w = v_mem v.
Proof.
  destruct v; cbn [materialize]; unfold mat_pending; intros H;
  repeat match goal with
  | H : bind ?x _ = ROk _ _ |- _ => destruct x as [? ?| |]; cbn [bind] in H; try discriminate
  | H : (if ?b then _ else _) = ROk _ _ |- _ => destruct b
  | H : match ?x with _ => _ end = ROk _ _ |- _ => destruct x; try discriminate
  end; try discriminate; injection H as <- <-; auto.
Qed.

Definition is_text (t : rtype) : bool := match t with RString => true | _ => false end.
Definition chases (t : rtype) : bool := match t with RDefault | RHist | RTDigest => false | _ => true end.
Lemma fixed_ok f n : In (f, n) fixed_sizes -> exists t, chases t = true /\ is_text t = false /\ t <> RSlice /\ t <> RDeref /\
  ((addr_size f = Some (t, n)) \/ (addr_size f = None /\ int_size f = Some (t, n))).
Proof.
  intros H. exists (match addr_size f, int_size f with Some (t, _), _ => t | None, Some (t, _) => t | _, _ => RSlice end).
  unfold fixed_sizes in H. cbn [In] in H.
  repeat (destruct H as [H|H]; [injection H as <- <-; cbn; repeat split; try discriminate; auto|]). destruct H.
Qed.

Lemma request_split elem array e o n str : request elem array e o n str -> forall rt a off size, split_call e = inl (Some (rt, a, off, size)) ->
  chases rt = true /\ is_text rt = str /\
  match rt with RDeref => o = 0 /\ n = elem | RSlice => o = off * elem /\ n = size * elem
           | RString => o = 0 /\ (n = size \/ size = -1 /\ n = match array with Some k => k | None => 64 end) /\ off = 0 /\ (size <> -1 \/ size = -1 /\ n = match array with Some k => k | None => 64 end)
           | _ => o = off /\ n = size end.
Proof.
  intros H. destruct H as [p|f p t n Hf Hn|f p t0 t o n Hf Ho Hn|p t n proto Hn|p t0 t o n proto Ho Hn|p t n Hn|p t0 t o n Ho Hn|f n p Hf|f n p t o Hf Ho|p|p t n Hn];
    intros rt a off size; cbn [split_call]; intros Hs.
  - injection Hs as <- <- <- <-. auto.
  - cbn [In] in Hf. destruct Hf as [<-|[<-|[<-|[]]]]; cbn in Hs; rewrite Hn in Hs; unfold mkcall in Hs; destruct (n <=? 0); try discriminate; injection Hs as <- <- <- <-; auto.
  - cbn [In] in Hf. destruct Hf as [<-|[<-|[<-|[]]]]; cbn in Hs; rewrite Ho, Hn in Hs; unfold mkcall in Hs; destruct (n <=? 0); try discriminate; injection Hs as <- <- <- <-; auto.
  - cbn [compile_func_call addr_size int_size String.eqb Ascii.eqb Bool.eqb in_names existsb orb expr_number] in Hs. rewrite Hn in Hs. unfold mkcall in Hs.
    destruct (in_names proto pkt_types); [|discriminate]. destruct (n <=? 0); try discriminate; injection Hs as <- <- <- <-; auto.
  - cbn [compile_func_call addr_size int_size String.eqb Ascii.eqb Bool.eqb in_names existsb orb expr_number] in Hs. rewrite Ho, Hn in Hs. unfold mkcall in Hs.
    destruct (in_names proto pkt_types); [|discriminate]. destruct (n <=? 0); try discriminate; injection Hs as <- <- <- <-; auto.
  - cbn in Hs; rewrite Hn in Hs; unfold mkcall in Hs; destruct (n <=? 0); try discriminate; injection Hs as <- <- <- <-; auto.
  - cbn in Hs; rewrite Ho, Hn in Hs; unfold mkcall in Hs; destruct (n <=? 0); try discriminate; injection Hs as <- <- <- <-; auto.
  - destruct (fixed_ok f n Hf) as (ft & C1 & C2 & C3 & C4 & Hc). unfold compile_func_call in Hs.
    assert (rt = ft /\ off = 0 /\ size = n) as (-> & -> & ->).
    { destruct Hc as [-> | [-> ->]] in Hs; injection Hs as <- <- <- <-; auto. }
    split; [exact C1|]. split; [exact C2|]. destruct ft; try discriminate; try congruence; auto.
  - destruct (fixed_ok f n Hf) as (ft & C1 & C2 & C3 & C4 & Hc). unfold compile_func_call in Hs. cbn [expr_number] in Hs. rewrite Ho in Hs.
    assert (rt = ft /\ off = o /\ size = n) as (-> & -> & ->).
    { destruct Hc as [-> | [-> ->]] in Hs; injection Hs as <- <- <- <-; auto. }
    split; [exact C1|]. split; [exact C2|]. destruct ft; try discriminate; try congruence; auto.
  - cbn in Hs. injection Hs as <- <- <- <-. cbn. split; [reflexivity|]. split; [reflexivity|]. split; [reflexivity|]. split; [right; auto|]. split; [reflexivity|]. right; auto.
  - cbn in Hs. rewrite Hn in Hs. unfold mkcall in Hs. destruct (Z.leb_spec n 0); try discriminate. injection Hs as <- <- <- <-. cbn.
    split; [reflexivity|]. split; [reflexivity|]. split; [reflexivity|]. split; [left; auto|]. split; [reflexivity|]. left. lia.
Qed.

Theorem requested T K e r off a elem array o n str :
  compile_eval K e = Some r -> gen_arg T (cf_env K) r off = Some a -> elem_of (cf_env K) (operand_type K e) = Some (elem, array) ->
  request elem array e o n str -> 
  forall M v, view_arg M a (Some v) = if v =? 0 then SNull else
    if str then SText (str_to M ((v + o) mod 2 ^ 64) (Z.to_nat n)) else SBytes (dump M ((v + o) mod 2 ^ 64) (Z.to_nat n)).
Proof.
  intros Hc Hg Hel Hq.
  destruct (compile_eval_inv K e r Hc) as (rt & off0 & size0 & v & s & w & s' & Hsp & Hev & _ & Hm & Hp & Hrt & _).
  destruct (request_split _ _ _ _ _ _ Hq _ _ _ _ Hsp) as (Hch & Htx & Hon).
  unfold operand_type in Hel. rewrite Hev in Hel. destruct (mat_ty _ _ _ _ _ Hm) as [Hbt _]. rewrite Hbt in Hp.
  unfold elem_of in Hel. unfold post_check in Hp. destruct (v_btf v) as [t|]; [|discriminate].
  unfold gen_arg in Hg. destruct (r_btf r) as [t'|] eqn:Hrb; [|discriminate]. destruct (sizeof (cf_env K) t') as [sz|] eqn:Hsz; [|discriminate]. cbv zeta in Hg.
  assert (HH : oa_chk a = true /\ oa_type a = rt /\ oa_off a = o /\ oa_true a = n).
  { destruct (is_bf (v_mem w)); [destruct rt; discriminate|].
    rewrite Hrt in Hg. destruct rt; try discriminate; (injection Hg as <-; cbn [oa_chk oa_type oa_off oa_true];
      destruct (under t) eqn:Hu; cbn [is_ptr is_array orb] in Hp; try discriminate; injection Hel as <- <-).
    all: repeat match goal with H : (if ?b then _ else _) = Some _ |- _ => destruct b eqn:?; try discriminate end.
    all: try (destruct (Z.eqb_spec size0 (-1))).
    all: try (injection Hp as Hp1 Hp2 Hp3; rewrite <- ?Hp2, <- ?Hp3).
    all: repeat match goal with H : (_ =? _) = true |- _ => apply Z.eqb_eq in H | H : (_ =? _) = false |- _ => apply Z.eqb_neq in H end.
    all: try (destruct Hon as [-> ->]; auto; fail).
    all: try (destruct Hon as (-> & Hn1 & -> & Hn2); subst; repeat split; auto; destruct Hn1 as [?|[? ?]], Hn2 as [?|[? ?]]; subst; auto; try congruence; try lia; fail).
    all: destruct Hon as [-> ->]; subst t'; unfold sizeof0 in *; rewrite Hsz in *; auto. }
  destruct HH as (H1 & H2 & H3 & H4). intros M v0. unfold view_arg. rewrite H1, H2, H3, H4. cbn [andb].
  destruct (v0 =? 0); [reflexivity|]. subst str. destruct rt; try discriminate; reflexivity.
Qed.
