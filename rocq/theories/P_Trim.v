(** * Proofs about TrimSpec. *)
From Coq Require Import List Bool String Arith.
From Verif Require Import M_Asm S_Asm P_Asm M_PktSel M_Trim S_Trim.
Import ListNotations.
Open Scope string_scope.
Open Scope list_scope.

Section P.
  Variable B : Type.
  Variable mov0 : bool -> B.
  Fixpoint look (t : list (string * bool)) (n : string) : option bool :=
    match t with [] => None | (s, a) :: t' => if String.eqb n s then Some a else look t' n end.
  Definition wc (t : list (string * bool)) (i : ins B) : ins B :=
    match look t (i_ref i) with Some a => {| i_sym := i_sym i; i_ref := ""; i_body := mov0 a |} | None => i end.
  Definition drop (t : list (string * bool)) (fs : list (func B)) : list (func B) :=
    map (fun f => {| f_name := f_name f; f_ref := f_ref f; f_head := f_head f; f_rest := map (wc t) (f_rest f) |})
        (filter (fun f => match look t (f_name f) with Some _ => false | None => true end) fs).
  Definition clear_all (t : list (string * bool)) (p : list (ins B)) : list (ins B) :=
    fold_left (fun p sa => clear_subprog mov0 p (fst sa) (snd sa)) t p.

  Lemma look_empty t : (forall s a, In (s, a) t -> s <> "") -> look t "" = None.
  Proof.
    induction t as [|[s a] t IH]; intros H; [reflexivity|]. cbn [look].
    destruct (String.eqb_spec "" s) as [E|E]; [destruct (H s a (or_introl eq_refl)); congruence|]. apply IH. intros; eapply H; right; eauto.
  Qed.
  Lemma drop_nil fs : drop [] fs = fs.
  Proof.
    unfold drop. induction fs as [|f fs IH]; cbn; [reflexivity|]. f_equal; [|exact IH]. destruct f; cbn. f_equal.
    rewrite <- (map_id f_rest) at 2. apply map_ext. intros i. reflexivity.
  Qed.
  Lemma clear_all_ok t : forall fs, wf_image fs -> (forall s a, In (s, a) t -> s <> "") -> (forall f, In f fs -> look t (f_ref f) = None) ->
    clear_all t (image fs) = image (drop t fs).
  Proof.
    induction t as [|[s a] t IH]; intros fs Hw Hn Hh; [rewrite drop_nil; reflexivity|].
    assert (Hs : s <> "") by (eapply Hn; left; reflexivity).
    assert (Hn' : forall s a, In (s, a) t -> s <> "") by (intros; eapply Hn; right; eauto).
    unfold clear_all. cbn [fold_left fst snd]. fold (clear_all t (clear_subprog mov0 (image fs) s a)).
    assert (Hr : forall f, In f fs -> f_ref f <> s).
    { intros f Hf E. specialize (Hh f Hf). cbn [look] in Hh. rewrite E, String.eqb_refl in Hh. discriminate. }
    rewrite (clear_ok B mov0 fs s a Hw Hs Hr). rewrite IH; [| |exact Hn'|].
    - f_equal. unfold drop, redirect, remove. clear Hw. induction fs as [|f fs IHf]; [reflexivity|].
      cbn [filter look]. destruct (String.eqb (f_name f) s) eqn:E; cbn [negb].
      + apply IHf; intros g Hg; [apply Hh|apply Hr]; right; exact Hg.
      + cbn [map filter f_name]. destruct (look t (f_name f)) eqn:E2.
        * apply IHf; intros g Hg; [apply Hh|apply Hr]; right; exact Hg.
        * cbn [map]. f_equal; [|apply IHf; intros g Hg; [apply Hh|apply Hr]; right; exact Hg].
          cbn [f_name f_ref f_head f_rest]. pose proof (Hr f (or_introl eq_refl)) as Hf. apply String.eqb_neq in Hf. rewrite Hf. f_equal.
          rewrite map_map. apply map_ext. intros i. unfold wc. cbn [look].
          destruct (String.eqb (i_ref i) s); [|reflexivity]. cbn [i_ref i_sym]. rewrite (look_empty t Hn'). reflexivity.
    - apply wf_redirect, wf_remove. exact Hw.
    - intros f Hf. unfold redirect in Hf. apply in_map_iff in Hf as (g & <- & Hg). unfold remove in Hg. apply filter_In in Hg as [Hg _].
      cbn [f_ref]. pose proof (Hr g Hg) as E. apply String.eqb_neq in E. rewrite E. specialize (Hh g Hg). cbn [look] in Hh. rewrite E in Hh. exact Hh.
  Qed.

  Definition given_by (expr : string) (nargs nouts : nat) (o : opt) : bool :=
    match o with FilterPkt => negb (String.eqb expr "") | FilterArg => negb (Nat.eqb nargs 0) | OutputArg => negb (Nat.eqb nouts 0) end.
  Definition table (expr : string) (nargs nouts : nat) : list (string * bool) :=
    (if String.eqb expr "" then map (fun s => (s, true)) (specialized ++ ["filter_pcap_l2"; "filter_pcap_l3"; "filter_skb"; "filter_xdp_buff"; "filter_xdp_frame"; "filter_pkt"]) else []) ++
    (if Nat.eqb nargs 0 then [("filter_arg", true)] else []) ++ (if Nat.eqb nouts 0 then [("output_arg", false)] else []).
  Lemma clears_map l : forall p, fold_left (fun p sa => clear_subprog mov0 p (fst sa) (snd sa)) (map (fun s => (s, true)) l) p = clears mov0 true l p.
  Proof. unfold clears. induction l as [|s l IH]; intros p; cbn [map fold_left fst snd]; [reflexivity|apply IH]. Qed.
  Lemma trim_table e a o p : trim_prog B mov0 e a o p = clear_all (table e a o) p.
  Proof.
    unfold trim_prog, table, clear_all. rewrite !fold_left_app. unfold filter_clear.
    generalize (specialized ++ ["filter_pcap_l2"; "filter_pcap_l3"; "filter_skb"; "filter_xdp_buff"; "filter_xdp_frame"; "filter_pkt"]). intros l.
    destruct (String.eqb e ""); [rewrite clears_map|]; destruct (Nat.eqb a 0), (Nat.eqb o 0); cbn [fold_left fst snd]; reflexivity.
  Qed.
  Ltac eqn_all n :=
    repeat match goal with
    | |- context [String.eqb n ?s] => let E := fresh "E" in destruct (String.eqb n s) eqn:E; [apply String.eqb_eq in E; subst n; vm_compute; reflexivity|cbn [orb]]
    end; reflexivity.
  Lemma look_table e a o n : look (table e a o) n = left_out (given_by e a o) n.
  Proof.
    unfold left_out, owner, table, given_by, pkt_functions, specialized. cbn [existsb app map].
    destruct (String.eqb e ""), (Nat.eqb a 0), (Nat.eqb o 0); cbn [app look negb]; eqn_all n.
  Qed.
  Lemma table_named e a o s b : In (s, b) (table e a o) -> s <> "".
  Proof.
    unfold table, specialized. destruct (String.eqb e ""), (Nat.eqb a 0), (Nat.eqb o 0); cbn [app map In];
      intros H; repeat (destruct H as [H|H]; [congruence|]); destruct H.
  Qed.
  Lemma drop_trimmed e a o fs : drop (table e a o) fs = trimmed mov0 (given_by e a o) fs.
  Proof.
    unfold drop, trimmed. rewrite (filter_ext _ (fun f => match left_out (given_by e a o) (f_name f) with Some _ => false | None => true end)).
    - apply map_ext. intros f. f_equal. apply map_ext. intros i. unfold wc, without_call. rewrite look_table. reflexivity.
    - intros f. rewrite look_table. reflexivity.
  Qed.
  Theorem trim_ok e a o fs : wf_image fs -> (forall f, In f fs -> left_out (given_by e a o) (f_ref f) = None) ->
    trim_prog B mov0 e a o (image fs) = image (trimmed mov0 (given_by e a o) fs).
  Proof.
    intros Hw Hh. rewrite trim_table, clear_all_ok; [rewrite drop_trimmed; reflexivity|exact Hw|apply table_named|].
    intros f Hf. rewrite look_table. apply Hh, Hf.
  Qed.

  Lemma left_out_empty g : left_out g "" = None.
  Proof. reflexivity. Qed.
  Lemma without_call_ref g i : left_out g (i_ref (without_call mov0 g i)) = None.
  Proof. unfold without_call. destruct (left_out g (i_ref i)) eqn:E; [reflexivity|exact E]. Qed.
  Lemma trimmed_calls g fs i : (forall f, In f fs -> left_out g (f_ref f) = None) -> In i (image (trimmed mov0 g fs)) -> left_out g (i_ref i) = None.
  Proof.
    intros Hh Hi. unfold image in Hi. apply in_flat_map in Hi as (f & Hf & Hi). unfold trimmed in Hf. apply in_map_iff in Hf as (h & <- & Hf).
    apply filter_In in Hf as [Hf _]. destruct Hi as [<-|Hi]; [exact (Hh h Hf)|]. cbn [f_rest] in Hi. apply in_map_iff in Hi as (j & <- & _). apply without_call_ref.
  Qed.
  Lemma trimmed_names g fs n : In n (map f_name (trimmed mov0 g fs)) <-> In n (map f_name fs) /\ left_out g n = None.
  Proof.
    unfold trimmed. rewrite map_map. cbn [f_name]. rewrite !in_map_iff. split.
    - intros (f & <- & Hf). apply filter_In in Hf as [Hf E]. destruct (left_out g (f_name f)) eqn:E2; [discriminate|]. split; [exists f; auto|reflexivity].
    - intros [(f & <- & Hf) E]. exists f. split; [reflexivity|]. apply filter_In. rewrite E. auto.
  Qed.
  Theorem trim_linked g fs : (forall f, In f fs -> left_out g (f_ref f) = None) -> linked fs -> linked (trimmed mov0 g fs).
  Proof.
    intros Hh Hl i Hi. pose proof (trimmed_calls g fs i Hh Hi) as Hn.
    unfold image in Hi. apply in_flat_map in Hi as (f & Hf & Hi). unfold trimmed in Hf. apply in_map_iff in Hf as (h & <- & Hf).
    apply filter_In in Hf as [Hf _].
    assert (Hx : i_ref i = "" \/ exists j, In j (image fs) /\ i_ref i = i_ref j).
    { destruct Hi as [<-|Hi].
      - right. cbn [i_ref f_ref]. exists {| i_sym := f_name h; i_ref := f_ref h; i_body := f_head h |}. split; [|reflexivity].
        unfold image. apply in_flat_map. exists h. split; [exact Hf|left; reflexivity].
      - cbn [f_rest] in Hi. apply in_map_iff in Hi as (j & <- & Hj). unfold without_call. destruct (left_out g (i_ref j)); [left; reflexivity|].
        right. exists j. split; [|reflexivity]. unfold image. apply in_flat_map. exists h. split; [exact Hf|right; exact Hj]. }
    destruct Hx as [E|(j & Hj & E)]; [left; exact E|]. destruct (Hl j Hj) as [E2|E2]; [left; congruence|].
    right. apply trimmed_names. rewrite E. rewrite E in Hn. auto.
  Qed.
  Lemma wf_trimmed g fs : wf_image fs -> wf_image (trimmed mov0 g fs).
  Proof.
    intros [H1 H2]. split.
    - unfold trimmed. rewrite map_map. cbn [f_name]. revert H1. clear H2. induction fs as [|f fs IH]; cbn [filter map]; intros H1; [constructor|].
      inversion H1; subst. destruct (left_out g (f_name f)); [apply IH; assumption|]. cbn [map]. constructor; [|apply IH; assumption].
      intros Hi. apply H2. apply in_map_iff in Hi as (h & E & Hi). apply filter_In in Hi as [Hi _]. rewrite <- E. apply in_map. exact Hi.
    - intros f Hf. unfold trimmed in Hf. apply in_map_iff in Hf as (h & <- & Hf). apply filter_In in Hf as [Hf _]. destruct (H2 h Hf) as [A1 A2].
      split; [exact A1|]. cbn [f_rest]. intros i Hi. apply in_map_iff in Hi as (j & <- & Hj). unfold without_call.
      destruct (left_out g (i_ref j)); cbn [i_sym]; exact (A2 j Hj).
  Qed.
  Lemma trimmed_twice g fs : trimmed mov0 g (trimmed mov0 g fs) = trimmed mov0 g fs.
  Proof.
    unfold trimmed. induction fs as [|f fs IH]; [reflexivity|]. cbn [filter]. destruct (left_out g (f_name f)) eqn:E; [exact IH|].
    cbn [map filter f_name]. rewrite E. cbn [map]. f_equal; [|exact IH]. cbn [f_name f_ref f_head f_rest]. f_equal. rewrite map_map. apply map_ext.
    intros i. unfold without_call at 1. rewrite without_call_ref. reflexivity.
  Qed.
  Theorem trim_twice e a o fs : wf_image fs -> (forall f, In f fs -> left_out (given_by e a o) (f_ref f) = None) ->
    trim_prog B mov0 e a o (trim_prog B mov0 e a o (image fs)) = trim_prog B mov0 e a o (image fs).
  Proof.
    intros Hw Hh. rewrite (trim_ok e a o fs Hw Hh). rewrite trim_ok; [rewrite trimmed_twice; reflexivity|apply wf_trimmed; exact Hw|].
    intros f Hf. unfold trimmed in Hf. apply in_map_iff in Hf as (h & <- & Hf). apply filter_In in Hf as [Hf _]. exact (Hh h Hf).
  Qed.
  Theorem trim_nothing e a o p : e <> "" -> a <> O -> o <> O -> trim_prog B mov0 e a o p = p.
  Proof.
    intros He Ha Ho. unfold trim_prog. apply String.eqb_neq in He. apply Nat.eqb_neq in Ha, Ho. rewrite He, Ha, Ho. reflexivity.
  Qed.
End P.
