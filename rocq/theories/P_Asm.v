(** * Proofs for M_Asm *)
From Coq Require Import List Bool String Lia.
From Verif Require Import M_Asm S_Asm.
Import ListNotations.
Open Scope string_scope.
Local Open Scope list_scope.

Section P.
  Variable B : Type.
  Implicit Types (fs : list (func B)) (p : list (ins B)).

  Lemma image_app a b : @image B (a ++ b) = image a ++ image b.
  Proof. unfold image. apply flat_map_app. Qed.
  Lemma find_start_none p stub : (forall i, In i p -> i_sym i <> stub) -> find_start p stub = None.
  Proof.
    induction p as [|i p IH]; intros H; cbn [find_start]; [reflexivity|].
    destruct (String.eqb_spec (i_sym i) stub) as [E|E]; [destruct (H i (or_introl eq_refl) E)|].
    rewrite IH; [reflexivity|]. intros j Hj. apply H. right. exact Hj.
  Qed.
  Lemma find_start_app p q stub : (forall i, In i p -> i_sym i <> stub) -> find_start (p ++ q) stub = option_map (fun k => List.length p + k) (find_start q stub).
  Proof.
    induction p as [|i p IH]; intros H; cbn [find_start app List.length]; [destruct (find_start q stub); reflexivity|].
    destruct (String.eqb_spec (i_sym i) stub) as [E|E]; [destruct (H i (or_introl eq_refl) E)|].
    rewrite IH; [|intros j Hj; apply H; right; exact Hj]. destruct (find_start q stub); reflexivity.
  Qed.
  Lemma body_len_app p q : (forall i, In i p -> i_sym i = "") -> (match q with [] => True | i :: _ => i_sym i <> "" end) -> body_len (p ++ q) = List.length p.
  Proof.
    intros H Hq. induction p as [|i p IH]; cbn [app body_len List.length].
    - destruct q as [|i q]; [reflexivity|]. cbn [body_len]. apply String.eqb_neq in Hq. rewrite Hq. reflexivity.
    - rewrite (H i (or_introl eq_refl)). cbn [String.eqb]. f_equal. apply IH. intros j Hj. apply H. right. exact Hj.
  Qed.
  Lemma image_sym fs name : wf_image fs -> ~ In name (map f_name fs) -> name <> "" -> forall i, In i (image fs) -> i_sym i <> name.
  Proof.
    intros [_ H] Hn Hne i Hi E. unfold image in Hi. apply in_flat_map in Hi as (f & Hf & Hi). destruct (H f Hf) as [Hf1 Hf2].
    destruct Hi as [<-|Hi].
    - apply Hn. cbn [i_sym] in E. rewrite <- E. apply in_map. exact Hf.
    - apply Hne. rewrite <- E. apply Hf2. exact Hi.
  Qed.
  Lemma image_head fs : wf_image fs -> match image fs with [] => True | i :: _ => i_sym i <> "" end.
  Proof. intros [_ H]. destruct fs as [|f fs]; cbn; [exact I|]. apply H. left. reflexivity. Qed.
  Lemma nodup_app (A : Type) (a b : list A) : NoDup (a ++ b) -> NoDup a /\ NoDup b.
  Proof.
    induction a as [|x a IH]; cbn [app]; intros H; [split; [constructor|exact H]|]. inversion H; subst. destruct (IH H3) as [Ha Hb].
    split; [constructor; [|exact Ha]|exact Hb]. intros Hi. apply H2. apply in_or_app. left. exact Hi.
  Qed.
  Lemma wf_app a b : wf_image (a ++ b) -> wf_image (B:=B) a /\ wf_image b.
  Proof.
    intros [H1 H2]. rewrite map_app in H1. split; split.
    - exact (proj1 (nodup_app _ _ _ H1)).
    - intros f Hf. apply H2. apply in_or_app. left. exact Hf.
    - exact (proj2 (nodup_app _ _ _ H1)).
    - intros f Hf. apply H2. apply in_or_app. right. exact Hf.
  Qed.

  Lemma split_stub fs name : wf_image fs -> In name (map f_name fs) -> exists a f b, fs = a ++ f :: b /\ f_name f = name /\
    ~ In name (map f_name a) /\ ~ In name (map f_name b).
  Proof.
    intros [Hnd _] Hin. apply in_map_iff in Hin as (f & Hf & Hin). apply in_split in Hin as (a & b & ->).
    exists a, f, b. split; [reflexivity|]. split; [exact Hf|]. rewrite map_app in Hnd. cbn [map] in Hnd. rewrite Hf in Hnd.
    apply NoDup_remove_2 in Hnd. rewrite in_app_iff in Hnd. tauto.
  Qed.
  Lemma redefine_other name h t fs : ~ In name (map f_name fs) -> redefine (B:=B) name h t fs = fs.
  Proof.
    intros H. unfold redefine. rewrite <- (map_id fs) at 2. apply map_ext_in. intros f Hf.
    destruct (String.eqb_spec (f_name f) name) as [E|]; [|reflexivity]. destruct H. rewrite <- E. apply in_map. exact Hf.
  Qed.
  Lemma remove_other name fs : ~ In name (map f_name fs) -> remove (B:=B) name fs = fs.
  Proof.
    intros H. unfold remove. induction fs as [|f fs IH]; cbn [filter]; [reflexivity|]. cbn [map In] in H.
    destruct (String.eqb_spec (f_name f) name) as [E|]; [tauto|]. cbn [negb]. rewrite IH; tauto.
  Qed.

  Lemma inject_at fs name code : wf_image fs -> name <> "" -> forall a f b, fs = a ++ f :: b -> f_name f = name -> ~ In name (map f_name a) ->
    inject (image fs) name code = image a ++ (match code with c :: t => {| i_sym := name; i_ref := f_ref f; i_body := i_body c |} :: t | [] => [] end) ++ image b.
  Proof.
    intros Hwf Hne a f b -> Hf Ha. pose proof (wf_app _ _ Hwf) as [Hwa Hwb].
    assert (Hwb' : wf_image b) by (apply (wf_app [f] b); exact Hwb).
    destruct Hwb as [_ Hwb]. destruct (Hwb f (or_introl eq_refl)) as [_ Hrest].
    assert (Hs : find_start (image (a ++ f :: b)) name = Some (List.length (image a))).
    { rewrite image_app. rewrite find_start_app by (apply image_sym; assumption). cbn [image flat_map lay app find_start i_sym].
      rewrite Hf, String.eqb_refl. cbn [option_map]. f_equal. lia. }
    unfold inject. rewrite Hs. rewrite image_app.
    assert (Hk : List.nth_error (image a ++ image (f :: b)) (List.length (image a)) = Some {| i_sym := f_name f; i_ref := f_ref f; i_body := f_head f |}).
    { rewrite nth_error_app2 by lia. rewrite PeanoNat.Nat.sub_diag. reflexivity. }
    rewrite Hk. cbn [i_sym i_ref]. rewrite Hf. 
    assert (He : find_end (image a ++ image (f :: b)) (List.length (image a)) = List.length (image a) + List.length (f_rest f)).
    { unfold find_end. f_equal. change (image (f :: b)) with ({| i_sym := f_name f; i_ref := f_ref f; i_body := f_head f |} :: (f_rest f ++ image b)).
      rewrite skipn_app. rewrite skipn_all2 by lia. replace (S (List.length (image a)) - List.length (image a)) with 1 by lia. cbn [skipn app].
      apply body_len_app; [exact Hrest|apply image_head; exact Hwb']. }
    rewrite He. rewrite firstn_app, firstn_all, PeanoNat.Nat.sub_diag. cbn [firstn]. rewrite app_nil_r. f_equal. f_equal.
    - destruct code; reflexivity.
    - rewrite skipn_app. rewrite skipn_all2 by lia. cbn [app].
      replace (List.length (image a) + List.length (f_rest f) + 1 - List.length (image a)) with (S (List.length (f_rest f))) by lia.
      change (image (f :: b)) with ({| i_sym := f_name f; i_ref := f_ref f; i_body := f_head f |} :: (f_rest f ++ image b)).
      cbn [skipn]. rewrite skipn_app, skipn_all, PeanoNat.Nat.sub_diag. reflexivity.
  Qed.

  Theorem inject_redefines fs name c t : wf_image fs -> name <> "" ->
    inject (image fs) name (c :: t) = image (redefine name (i_body c) t fs).
  Proof.
    intros Hwf Hne. destruct (in_dec string_dec name (map f_name fs)) as [Hin|Hin].
    - destruct (split_stub fs name Hwf Hin) as (a & f & b & -> & Hf & Ha & Hb). rewrite (inject_at _ _ _ Hwf Hne a f b eq_refl Hf Ha).
      unfold redefine. rewrite map_app. cbn [map]. rewrite Hf, String.eqb_refl. fold (redefine name (i_body c) t a). fold (redefine name (i_body c) t b).
      rewrite (redefine_other _ _ _ a Ha), (redefine_other _ _ _ b Hb), image_app. reflexivity.
    - rewrite redefine_other by exact Hin. unfold inject. rewrite find_start_none; [reflexivity|]. apply image_sym; assumption.
  Qed.
  Theorem inject_removes fs name : wf_image fs -> name <> "" -> inject (image fs) name [] = image (remove name fs).
  Proof.
    intros Hwf Hne. destruct (in_dec string_dec name (map f_name fs)) as [Hin|Hin].
    - destruct (split_stub fs name Hwf Hin) as (a & f & b & -> & Hf & Ha & Hb). rewrite (inject_at _ _ _ Hwf Hne a f b eq_refl Hf Ha).
      unfold remove. rewrite filter_app. cbn [filter]. rewrite Hf, String.eqb_refl. cbn [negb]. fold (remove name a). fold (remove name b).
      rewrite (remove_other _ a Ha), (remove_other _ b Hb), image_app. reflexivity.
    - rewrite remove_other by exact Hin. unfold inject. rewrite find_start_none; [reflexivity|]. apply image_sym; assumption.
  Qed.
  Lemma wf_remove name fs : wf_image fs -> wf_image (B:=B) (remove name fs).
  Proof.
    intros [H1 H2]. split.
    - unfold remove. induction fs as [|f fs IH]; cbn [filter map] in *; [constructor|]. inversion H1; subst.
      destruct (negb (String.eqb (f_name f) name)); [|apply IH; [assumption|intros g Hg; apply H2; right; exact Hg]].
      cbn [map]. constructor; [|apply IH; [assumption|intros g Hg; apply H2; right; exact Hg]].
      intros Hi. apply in_map_iff in Hi as (g & Hg & Hi). apply filter_In in Hi as [Hi _]. apply H3. rewrite <- Hg. apply in_map. exact Hi.
    - intros f Hf. unfold remove in Hf. apply filter_In in Hf as [Hf _]. apply H2. exact Hf.
  Qed.

  (** replacing references *)
  Lemma replace_image name b fs : wf_image fs -> name <> "" -> (forall f, In f fs -> f_ref f <> name) ->
    map (fun i => if String.eqb (i_ref i) name then {| i_sym := ""; i_ref := ""; i_body := b |} else i) (image fs) = image (redirect name b fs).
  Proof.
    intros [_ Hwf] Hne Hh. induction fs as [|f fs IH]; [reflexivity|].
    cbn [image flat_map redirect map]. rewrite map_app. f_equal; [|apply IH; intros g Hg; [apply Hwf|apply Hh]; right; exact Hg].
    cbn [lay map f_name f_ref f_head f_rest]. destruct (Hwf f (or_introl eq_refl)) as [_ Hr].
    assert (E : String.eqb (f_ref f) name = false) by (apply String.eqb_neq; apply Hh; left; reflexivity).
    cbn [i_ref]. rewrite E. unfold lay. cbn [f_name f_ref f_head f_rest]. f_equal. apply map_ext_in. intros i Hi. rewrite (Hr i Hi). reflexivity.
  Qed.
  Theorem clear_ok (mov0 : bool -> B) fs name flt : wf_image fs -> name <> "" -> (forall f, In f fs -> f_ref f <> name) ->
    clear_subprog mov0 (image fs) name flt = image (redirect name (mov0 flt) (remove name fs)).
  Proof.
    intros Hwf Hne Hh. unfold clear_subprog. rewrite inject_removes by assumption. apply replace_image; [apply wf_remove; exact Hwf|exact Hne|].
    intros f Hf. unfold remove in Hf. apply filter_In in Hf as [Hf _]. apply Hh. exact Hf.
  Qed.
  Lemma redirect_names name b fs : map f_name (redirect (B:=B) name b fs) = map f_name fs.
  Proof. unfold redirect. rewrite map_map. reflexivity. Qed.
  Lemma redirect_clean name b fs i : name <> "" -> In i (image (redirect (B:=B) name b fs)) -> i_ref i <> name.
  Proof.
    intros Hne Hi. unfold image in Hi. apply in_flat_map in Hi as (f & Hf & Hi). unfold redirect in Hf. apply in_map_iff in Hf as (g & <- & _).
    destruct Hi as [<-|Hi].
    - cbn [i_ref f_ref]. destruct (String.eqb_spec (f_ref g) name); congruence.
    - cbn [f_rest] in Hi. apply in_map_iff in Hi as (j & <- & _). destruct (String.eqb_spec (i_ref j) name); [cbn [i_ref]; congruence|assumption].
  Qed.
  Lemma wf_redirect name b fs : wf_image fs -> wf_image (redirect (B:=B) name b fs).
  Proof.
    intros [H1 H2]. split; [rewrite redirect_names; exact H1|]. intros f Hf. unfold redirect in Hf. apply in_map_iff in Hf as (g & <- & Hg).
    destruct (H2 g Hg) as [A1 A2]. split; [exact A1|]. cbn [f_rest]. intros i Hi. apply in_map_iff in Hi as (j & <- & Hj).
    destruct (String.eqb (i_ref j) name); [cbn [i_sym]|]; apply A2; exact Hj.
  Qed.

  Theorem patch_ok (kcall : nat -> B) ck ir fs : wf_image fs -> (forall f, In f fs -> f_ref f <> cookie_func /\ f_ref f <> isret_func) ->
    patch_session kcall ck ir (image fs) =
    image (remove isret_func (remove cookie_func (redirect isret_func (kcall ir) (redirect cookie_func (kcall ck) fs)))).
  Proof.
    intros Hwf Hh. unfold patch_session.
    set (q1 := redirect cookie_func (kcall ck) fs).
    assert (E : map (fun i => if String.eqb (i_ref i) cookie_func then {| i_sym := ""; i_ref := ""; i_body := kcall ck |}
         else if String.eqb (i_ref i) isret_func then {| i_sym := ""; i_ref := ""; i_body := kcall ir |} else i) (image fs) = image (redirect isret_func (kcall ir) q1)).
    { rewrite <- (replace_image isret_func (kcall ir) q1); [|apply wf_redirect; exact Hwf|discriminate|].
      - unfold q1. rewrite <- (replace_image cookie_func (kcall ck) fs Hwf); [|discriminate|intros f Hf; apply Hh; exact Hf].
        rewrite map_map. apply map_ext. intros i. destruct (String.eqb (i_ref i) cookie_func); reflexivity.
      - intros f Hf. unfold q1, redirect in Hf. apply in_map_iff in Hf as (g & <- & Hg). cbn [f_ref]. destruct (Hh g Hg) as [_ Hg2].
        destruct (String.eqb (f_ref g) cookie_func); [discriminate|exact Hg2]. }
    rewrite E. assert (Hw2 : wf_image (redirect isret_func (kcall ir) q1)) by (do 2 apply wf_redirect; exact Hwf).
    rewrite inject_removes by (try discriminate; exact Hw2). apply inject_removes; [apply wf_remove; exact Hw2|discriminate].
  Qed.
End P.
