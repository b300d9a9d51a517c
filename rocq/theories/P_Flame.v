(** * Proofs for M_Flame *)
From Coq Require Import List Bool String ZArith Lia.
From Verif Require Import M_Flame S_Flame.
Import ListNotations.
Open Scope string_scope.
Open Scope Z_scope.

Section FrameInd.
  Variable P : frame -> Prop.
  Hypothesis H : forall n v k, Forall P k -> P (Frame n v k).
  Fixpoint frame_ind2 (f : frame) : P f :=
    match f with
    | Frame n v k => H n v k ((fix go (l : list frame) : Forall P l := match l with [] => Forall_nil _ | c :: l' => Forall_cons _ (frame_ind2 c) (go l') end) k)
    end.
End FrameInd.

(** Names are different among siblings, at every level. *)
Inductive uniq : frame -> Prop := Uniq n v k : NoDup (map fname k) -> Forall uniq k -> uniq (Frame n v k).
Definition uniqs (k : list frame) := NoDup (map fname k) /\ Forall uniq k.
(** No frame is named root. *)
Inductive noroot : frame -> Prop := Noroot n v k : n <> "root" -> Forall noroot k -> noroot (Frame n v k).

Fixpoint look (x : string) (l : list frame) : option frame :=
  match l with [] => None | f :: l' => if String.eqb (fname f) x then Some f else look x l' end.
Fixpoint self_at (k : list frame) (p : list string) : Z :=
  match p with
  | [] => 0
  | x :: q => match look x k with None => 0 | Some f => match q with [] => self_value f | _ => self_at (fkids f) q end end
  end.

Lemma sub_sum l v : fold_left (fun s c => s - fval c) l v = v - fold_right Z.add 0 (map fval l).
Proof. revert v. induction l as [|f l IH]; intros v; cbn [fold_left map fold_right]; [lia|]. rewrite IH. lia. Qed.
Lemma self_alt n v k : self_value (Frame n v k) = v - fold_right Z.add 0 (map fval k).
Proof. apply sub_sum. Qed.
Lemma update_names x v sub l : map fname (update x v sub l) = if in_dec string_dec x (map fname l) then map fname l else (map fname l ++ [x])%list.
Proof.
  induction l as [|[n w k] l IH]; cbn [update map fname]; [reflexivity|].
  destruct (String.eqb_spec n x) as [E|E].
  - cbn [map fname]. destruct (in_dec string_dec x (n :: map fname l)) as [|H]; [reflexivity|]. destruct H. left. exact E.
  - cbn [map fname]. rewrite IH. destruct (in_dec string_dec x (map fname l)) as [H|H];
    destruct (in_dec string_dec x (n :: map fname l)) as [H'|H']; try reflexivity.
    + destruct H'. right. exact H.
    + destruct H' as [H'|H']; [congruence|contradiction].
Qed.
Lemma update_sum x v sub l : fold_right Z.add 0 (map fval (update x v sub l)) = fold_right Z.add 0 (map fval l) + v.
Proof.
  induction l as [|[n w k] l IH]; cbn [update map fval fold_right]; [lia|].
  destruct (String.eqb n x); cbn [map fval fold_right]; [lia|]. rewrite IH. lia.
Qed.
Lemma look_update x v sub l y : look y (update x v sub l) =
  if String.eqb x y then Some match look x l with Some (Frame n w k) => Frame n (w + v) (sub k) | None => Frame x v (sub []) end else look y l.
Proof.
  induction l as [|[n w k] l IH]; cbn [update look fname].
  - destruct (String.eqb x y); reflexivity.
  - destruct (String.eqb_spec n x) as [E|E]; cbn [look fname].
    + subst n. destruct (String.eqb x y); reflexivity.
    + destruct (String.eqb_spec n y) as [E'|E'].
      * subst y. destruct (String.eqb_spec x n); [congruence|reflexivity].
      * exact IH.
Qed.
Lemma insert_nil st v : forall q, st <> [] -> self_at (insert st v []) q = if list_eq_dec string_dec st q then v else 0.
Proof.
  induction st as [|x st IH]; intros q Hn; [congruence|]. cbn [insert update].
  destruct q as [|y q]; cbn [self_at].
  - destruct (list_eq_dec string_dec (x :: st) []); [discriminate|reflexivity].
  - cbn [look fname]. destruct (String.eqb_spec x y) as [E|E].
    + subst y. cbn [fkids]. destruct q as [|z q].
      * rewrite self_alt. destruct st as [|x' st]; cbn [insert].
        -- destruct (list_eq_dec string_dec [x] [x]); [cbn; lia|congruence].
        -- rewrite update_sum. destruct (list_eq_dec string_dec (x :: x' :: st) [x]); [discriminate|cbn; lia].
      * destruct st as [|x' st].
        -- destruct (list_eq_dec string_dec [x] (x :: z :: q)); [discriminate|]. reflexivity.
        -- rewrite IH by discriminate. destruct (list_eq_dec string_dec (x' :: st) (z :: q)) as [e|e];
           destruct (list_eq_dec string_dec (x :: x' :: st) (x :: z :: q)) as [e'|e']; congruence.
    + destruct (list_eq_dec string_dec (x :: st) (y :: q)); [congruence|reflexivity].
Qed.
Lemma self_insert st v : forall l q, st <> [] -> q <> [] ->
  self_at (insert st v l) q = self_at l q + if list_eq_dec string_dec st q then v else 0.
Proof.
  induction st as [|x st IH]; intros l q Hn Hq; [congruence|]. cbn [insert].
  destruct q as [|y q]; [congruence|]. cbn [self_at]. rewrite look_update.
  destruct (String.eqb_spec x y) as [E|E].
  - subst y. destruct (look x l) as [[n w k]|] eqn:El.
    + cbn [fkids]. destruct q as [|z q].
      * rewrite !self_alt. destruct st as [|x' st]; cbn [insert].
        -- destruct (list_eq_dec string_dec [x] [x]); [lia|congruence].
        -- rewrite update_sum. destruct (list_eq_dec string_dec (x :: x' :: st) [x]); [discriminate|lia].
      * destruct st as [|x' st].
        -- cbn [insert]. destruct (list_eq_dec string_dec [x] (x :: z :: q)); [discriminate|lia].
        -- rewrite IH by discriminate. f_equal. destruct (list_eq_dec string_dec (x' :: st) (z :: q)) as [e|e];
           destruct (list_eq_dec string_dec (x :: x' :: st) (x :: z :: q)) as [e'|e']; congruence.
    + pose proof (insert_nil (x :: st) v (x :: q) Hn) as H. cbn [insert update self_at look fname] in H. rewrite String.eqb_refl in H.
      cbn [fkids] in *. rewrite H. lia.
  - destruct (list_eq_dec string_dec (x :: st) (y :: q)); [congruence|lia].
Qed.
Lemma nodup_snoc (l : list string) x : NoDup l -> ~ In x l -> NoDup (l ++ [x])%list.
Proof.
  intros Hl Hx. induction l as [|y l IH]; cbn [app]; [repeat constructor; intros []|]. inversion Hl; subst. constructor.
  - rewrite in_app_iff. intros [H|[H|[]]]; [contradiction|]. subst. apply Hx. left. reflexivity.
  - apply IH; [assumption|]. intros H. apply Hx. right. exact H.
Qed.
Lemma uniqs_update x v sub l : (forall k, uniqs k -> uniqs (sub k)) -> uniqs l -> uniqs (update x v sub l).
Proof.
  intros Hs [H1 H2]. split.
  - rewrite update_names. destruct (in_dec string_dec x (map fname l)); [exact H1|apply nodup_snoc; assumption].
  - clear H1. induction l as [|[n w k] l IH]; cbn [update].
    + constructor; [|constructor]. destruct (Hs []) as [A1 A2]; [split; constructor|]. constructor; assumption.
    + inversion H2 as [|a b Ha Hb]; subst. destruct (String.eqb n x).
      * constructor; [|exact Hb]. inversion Ha; subst. destruct (Hs k) as [A1 A2]; [split; assumption|]. constructor; assumption.
      * constructor; [exact Ha|apply IH; exact Hb].
Qed.
Lemma uniqs_insert st v : forall l, uniqs l -> uniqs (insert st v l).
Proof. induction st as [|x st IH]; intros l H; cbn [insert]; [exact H|]. apply uniqs_update; [exact IH|exact H]. Qed.
Lemma noroot_update x v sub l : x <> "root" -> (forall k, Forall noroot k -> Forall noroot (sub k)) -> Forall noroot l -> Forall noroot (update x v sub l).
Proof.
  intros Hx Hs H. induction l as [|[n w k] l IH]; cbn [update].
  - constructor; [|constructor]. constructor; [exact Hx|apply Hs; constructor].
  - inversion H as [|a b Ha Hb]; subst. destruct (String.eqb n x).
    + constructor; [|exact Hb]. inversion Ha; subst. constructor; [assumption|apply Hs; assumption].
    + constructor; [exact Ha|apply IH; exact Hb].
Qed.
Lemma noroot_insert st v : ~ In "root" st -> forall l, Forall noroot l -> Forall noroot (insert st v l).
Proof.
  induction st as [|x st IH]; intros Hn l H; cbn [insert]; [exact H|]. apply noroot_update; [|apply IH|exact H].
  - intros E. apply Hn. left. exact E.
  - intros Hi. apply Hn. right. exact Hi.
Qed.

(** folding *)
Definition folds (k : list frame) (path : list string) : list (list string * Z) := flat_map (fun c => traverse c path) k.
Lemma traverse_eq n v k path : traverse (Frame n v k) path =
  ((if String.eqb n "root" then [] else if 0 <? self_value (Frame n v k) then [((path ++ [n])%list, self_value (Frame n v k))] else []) ++
  folds k (if String.eqb n "root" then path else (path ++ [n])%list))%list.
Proof.
  cbn [traverse]. replace ((fix go (l : list frame) : list (list string * Z) := match l with [] => [] | c :: l' => (traverse c (if String.eqb n "root" then path else (path ++ [n])%list) ++ go l')%list end) k)
    with (folds k (if String.eqb n "root" then path else (path ++ [n])%list)).
  - destruct (String.eqb n "root"); reflexivity.
  - induction k as [|c k IH]; [reflexivity|]. cbn [folds flat_map]. f_equal.
Qed.
Lemma look_in k f : NoDup (map fname k) -> In f k -> look (fname f) k = Some f.
Proof.
  induction k as [|g k IH]; intros Hn Hi; [destruct Hi|]. destruct Hi as [->|Hi]; cbn [look].
  - rewrite String.eqb_refl. reflexivity.
  - inversion Hn; subst. destruct (String.eqb_spec (fname g) (fname f)) as [E|E]; [|apply IH; assumption].
    destruct H1. rewrite E. apply in_map. exact Hi.
Qed.
Lemma look_some k x f : look x k = Some f -> In f k /\ fname f = x.
Proof.
  induction k as [|g k IH]; cbn [look]; [discriminate|]. destruct (String.eqb_spec (fname g) x) as [E|E].
  - intros H. injection H as <-. split; [left; reflexivity|exact E].
  - intros H. destruct (IH H). split; [right|]; assumption.
Qed.
Definition spec1 (f : frame) := forall path p n, uniq f -> noroot f ->
  (In (p, n) (traverse f path) <-> exists q, p = (path ++ q)%list /\ q <> [] /\ self_at [f] q = n /\ 0 < n).
Lemma folds_spec k : Forall spec1 k -> forall path p n, uniqs k -> Forall noroot k ->
  (In (p, n) (folds k path) <-> exists q, p = (path ++ q)%list /\ q <> [] /\ self_at k q = n /\ 0 < n).
Proof.
  intros Hk path p n [Hn Hu] Hr. unfold folds. rewrite in_flat_map. rewrite Forall_forall in *. split.
  - intros (f & Hf & Hi). apply (Hk f Hf path p n (Hu f Hf) (Hr f Hf)) in Hi as (q & -> & Hq & Hs & Hp).
    exists q. split; [reflexivity|]. split; [exact Hq|]. split; [|exact Hp]. rewrite <- Hs. destruct q as [|x q]; [congruence|].
    cbn [self_at look]. destruct (String.eqb_spec (fname f) x) as [E|E].
    + subst x. rewrite (look_in k f Hn Hf). reflexivity.
    + cbn [self_at look] in Hs. apply String.eqb_neq in E. rewrite E in Hs. lia.
  - intros (q & -> & Hq & Hs & Hp). destruct q as [|x q]; [congruence|]. cbn [self_at] in Hs. destruct (look x k) as [f|] eqn:El; [|lia].
    apply look_some in El as [Hf Ex]. exists f. split; [exact Hf|]. apply (Hk f Hf path _ n (Hu f Hf) (Hr f Hf)).
    exists (x :: q). split; [reflexivity|]. split; [discriminate|]. split; [|exact Hp]. cbn [self_at look]. rewrite Ex, String.eqb_refl. exact Hs.
Qed.
Lemma traverse_spec f : spec1 f.
Proof.
  induction f as [n v k Hk] using frame_ind2. intros path p m Hu Hr. rewrite traverse_eq. inversion Hu; subst. inversion Hr; subst.
  assert (E : String.eqb n "root" = false) by (apply String.eqb_neq; assumption). rewrite E. rewrite in_app_iff.
  rewrite (folds_spec k Hk (path ++ [n])%list p m (conj H1 H3) H5). split.
  - intros [Hi|(q & -> & Hq & Hs & Hp)].
    + destruct (Z.ltb_spec 0 (self_value (Frame n v k))) as [Hlt|]; [|destruct Hi]. destruct Hi as [Hi|[]]. injection Hi as <- <-.
      exists [n]. split; [reflexivity|]. split; [discriminate|]. cbn [self_at look fname]. rewrite String.eqb_refl. split; [reflexivity|exact Hlt].
    + exists (n :: q). split; [rewrite <- app_assoc; reflexivity|]. split; [discriminate|]. cbn [self_at look fname]. rewrite String.eqb_refl.
      destruct q; [congruence|]. cbn [fkids]. split; assumption.
  - intros (q & -> & Hq & Hs & Hp). destruct q as [|x q]; [congruence|]. cbn [self_at look fname] in Hs.
    destruct (String.eqb_spec n x) as [->|]; [|lia]. destruct q as [|y q].
    + left. rewrite Hs. destruct (Z.ltb_spec 0 m); [left; reflexivity|lia].
    + right. exists (y :: q). split; [rewrite <- app_assoc; reflexivity|]. split; [discriminate|]. split; assumption.
Qed.
(** each path once *)
Lemma traverse_prefix f : forall path p n, uniq f -> noroot f -> In (p, n) (traverse f path) -> exists q, p = (path ++ fname f :: q)%list.
Proof.
  intros path p n Hu Hr Hi. apply (traverse_spec f path p n Hu Hr) in Hi as (q & -> & Hq & Hs & Hp). destruct q as [|x q]; [congruence|].
  cbn [self_at look] in Hs. destruct (String.eqb_spec (fname f) x) as [->|]; [|lia]. exists q. reflexivity.
Qed.
Lemma nodup_app2 {A} (a b : list A) : NoDup a -> NoDup b -> (forall x, In x a -> ~ In x b) -> NoDup (a ++ b)%list.
Proof.
  intros Ha Hb H. induction a as [|x a IH]; [exact Hb|]. inversion Ha; subst. cbn [app]. constructor.
  - rewrite in_app_iff. intros [Hi|Hi]; [contradiction|]. apply (H x); [left; reflexivity|exact Hi].
  - apply IH; [assumption|]. intros y Hy. apply H. right. exact Hy.
Qed.
Definition nd1 (f : frame) := forall path, uniq f -> noroot f -> NoDup (map fst (traverse f path)).
Lemma folds_nodup k : Forall nd1 k -> forall path, uniqs k -> Forall noroot k -> NoDup (map fst (folds k path)).
Proof.
  intros Hk path [Hn Hu] Hr. induction k as [|f k IH]; [constructor|].
  inversion Hk as [|? ? Hk1 Hk2]; subst. inversion Hu as [|? ? Hu1 Hu2]; subst. inversion Hr as [|? ? Hr1 Hr2]; subst. cbn [map] in Hn. inversion Hn; subst.
  unfold folds. cbn [flat_map]. rewrite map_app. apply nodup_app2; [apply Hk1; assumption|apply IH; assumption|].
  intros p Hp Hq. apply in_map_iff in Hp as ([p1 n1] & E1 & Hp). cbn [fst] in E1. subst p1.
  apply in_map_iff in Hq as ([p2 n2] & E2 & Hq). cbn [fst] in E2. subst p2. apply in_flat_map in Hq as (g & Hg & Hq).
  rewrite Forall_forall in Hu2, Hr2. apply traverse_prefix in Hp as (q1 & ->); [|assumption|assumption].
  apply traverse_prefix in Hq as (q2 & E); [|apply Hu2; exact Hg|apply Hr2; exact Hg]. apply app_inv_head in E. injection E as E _.
  apply H1. rewrite E. apply in_map. exact Hg.
Qed.
Lemma traverse_nodup f : nd1 f.
Proof.
  induction f as [n v k Hk] using frame_ind2. intros path Hu Hr. rewrite traverse_eq. inversion Hu; subst. inversion Hr; subst.
  assert (E : String.eqb n "root" = false) by (apply String.eqb_neq; assumption). rewrite E. rewrite map_app.
  apply nodup_app2; [destruct (0 <? _); repeat constructor; intros []|apply folds_nodup; [exact Hk|split; assumption|assumption]|].
  intros p Hp Hq. destruct (0 <? _); [|destruct Hp]. destruct Hp as [<-|[]]. cbn [fst] in Hq. apply in_map_iff in Hq as ([p2 n2] & E2 & Hq). cbn [fst] in E2. subst p2.
  apply (folds_spec k) in Hq as (q & E2 & Hq & _); [|rewrite Forall_forall; intros g _; apply traverse_spec|split; assumption|assumption].
  rewrite <- (app_nil_r (path ++ [n])%list) in E2 at 1. apply app_inv_head in E2. congruence.
Qed.

Definition build (samples : list (list string * Z)) : graph := fold_left (fun g s => add_stack g (fst s) (snd s)) samples new_graph.
Lemma build_inv samples : (forall s, In s samples -> ~ In "root" (fst s)) ->
  exists v k, g_root (build samples) = Frame "root" v k /\ uniqs k /\ Forall noroot k /\ (forall p, p <> [] -> self_at k p = weight samples p).
Proof.
  intros H. unfold build.
  assert (G : forall g, (exists v k, g_root g = Frame "root" v k /\ uniqs k /\ Forall noroot k) ->
    exists v k, g_root (fold_left (fun g s => add_stack g (fst s) (snd s)) samples g) = Frame "root" v k /\ uniqs k /\ Forall noroot k /\
     (forall p, p <> [] -> self_at k p = self_at (fkids (g_root g)) p + weight samples p)).
  { induction samples as [|[st x] samples IH]; intros g (v & k & Eg & Hu & Hr); cbn [fold_left fst snd].
    - exists v, k. split; [exact Eg|]. split; [exact Hu|]. split; [exact Hr|]. intros p Hp. rewrite Eg. cbn. lia.
    - assert (Hg : exists v k, g_root (add_stack g st x) = Frame "root" v k /\ uniqs k /\ Forall noroot k).
      { destruct st as [|a st]; cbn [add_stack]; [exists v, k; auto|]. rewrite Eg. eexists _, _. split; [reflexivity|]. split.
        - apply uniqs_insert. exact Hu.
        - apply (noroot_insert (a :: st)); [apply (H (a :: st, x)); left; reflexivity|exact Hr]. }
      destruct (IH (fun s Hs => H s (or_intror Hs)) _ Hg) as (v' & k' & E1 & E2 & E3 & E4). exists v', k'. repeat split; try apply E2; try assumption.
      intros p Hp. rewrite (E4 p Hp). unfold weight. cbn [filter fst].
      destruct st as [|a st]; cbn [add_stack].
      + destruct (list_eq_dec string_dec [] p); [congruence|]. reflexivity.
      + rewrite Eg. cbn [g_root fkids]. rewrite (self_insert (a :: st)) by (try discriminate; exact Hp).
        destruct (list_eq_dec string_dec (a :: st) p); cbn [map fold_right snd]; lia. }
  destruct (G new_graph) as (v & k & E1 & E2 & E3 & E4).
  - exists 0, []. split; [reflexivity|]. split; [split; constructor|constructor].
  - exists v, k. repeat split; try apply E2; try assumption. intros p Hp. rewrite (E4 p Hp). cbn. destruct p; reflexivity.
Qed.
Theorem folded_counts samples : (forall s, In s samples -> ~ In "root" (fst s)) ->
  NoDup (map fst (folded (build samples))) /\
  (forall p n, In (p, n) (folded (build samples)) <-> p <> [] /\ n = weight samples p /\ 0 < n).
Proof.
  intros H. destruct (build_inv samples H) as (v & k & E & Hu & Hr & Hs). unfold folded. rewrite E, traverse_eq. cbn [String.eqb Ascii.eqb Bool.eqb app]. split.
  - apply folds_nodup; [rewrite Forall_forall; intros g _; apply traverse_nodup|exact Hu|exact Hr].
  - intros p n. rewrite folds_spec; [|rewrite Forall_forall; intros g _; apply traverse_spec|exact Hu|exact Hr]. cbn [app]. split.
    + intros (q & -> & Hq & <- & Hp). split; [exact Hq|]. split; [apply Hs; exact Hq|exact Hp].
    + intros (Hq & -> & Hp). exists p. split; [reflexivity|]. split; [exact Hq|]. split; [apply Hs; exact Hq|exact Hp].
Qed.
(** the sum of a counting table over distinct keys *)
Lemma weight_total (keys : list (list string)) samples : NoDup keys -> (forall s, In s samples -> In (fst s) keys) ->
  fold_right Z.add 0 (map (weight samples) keys) = total samples.
Proof.
  intros Hn. induction samples as [|[st x] samples IH]; intros H.
  - unfold weight, total. cbn. clear. induction keys; cbn; [reflexivity|assumption].
  - unfold total. cbn [map fold_right snd]. fold (total samples). rewrite <- IH by (intros s Hs; apply H; right; exact Hs).
    assert (Hin : In st keys) by (apply (H (st, x)); left; reflexivity). clear H IH.
    assert (Ew : forall p, weight ((st, x) :: samples) p = (if list_eq_dec string_dec st p then x else 0) + weight samples p).
    { intros p. unfold weight. cbn [filter fst]. destruct (list_eq_dec string_dec st p); cbn [map fold_right snd]; lia. }
    rewrite (map_ext _ _ Ew). clear Ew. induction keys as [|p keys IH]; [destruct Hin|]. inversion Hn; subst. cbn [map fold_right].
    destruct Hin as [->|Hin].
    + destruct (list_eq_dec string_dec st st); [|congruence].
      assert (E : fold_right Z.add 0 (map (fun p => (if list_eq_dec string_dec st p then x else 0) + weight samples p) keys) = fold_right Z.add 0 (map (weight samples) keys)).
      { clear -H1. induction keys as [|p keys IH]; [reflexivity|]. cbn [map fold_right]. cbn [In] in H1. destruct (list_eq_dec string_dec st p); [subst; tauto|]. rewrite IH by tauto. reflexivity. }
      rewrite E. lia.
    + destruct (list_eq_dec string_dec st p); [subst; contradiction|]. rewrite IH by assumption. lia.
Qed.
Lemma weight_nonneg samples p : (forall s, In s samples -> 0 <= snd s) -> 0 <= weight samples p.
Proof.
  intros H. unfold weight. induction samples as [|s samples IH]; cbn [filter]; [cbn; lia|].
  pose proof (H s (or_introl eq_refl)). assert (0 <= fold_right Z.add 0 (map snd (filter (fun s => if list_eq_dec string_dec (fst s) p then true else false) samples))) by (apply IH; intros t Ht; apply H; right; exact Ht).
  destruct (list_eq_dec string_dec (fst s) p); cbn [map fold_right]; lia.
Qed.
Theorem folded_sum samples : (forall s, In s samples -> ~ In "root" (fst s) /\ fst s <> [] /\ 0 < snd s) ->
  fold_right Z.add 0 (map snd (folded (build samples))) = total samples.
Proof.
  intros H. destruct (folded_counts samples) as [Hn Hc]; [intros s Hs; apply H; exact Hs|].
  rewrite <- (weight_total (map fst (folded (build samples))) samples Hn).
  - rewrite map_map. f_equal. apply map_ext_in. intros [p n] Hi. cbn [fst snd]. apply Hc in Hi. apply Hi.
  - intros [p x] Hs. apply in_map_iff. exists (p, weight samples p). split; [reflexivity|]. apply Hc. destruct (H _ Hs) as (_ & H1 & H2). cbn [fst snd] in *.
    split; [exact H1|]. split; [reflexivity|].
    clear Hn Hc. induction samples as [|[q y] l IH]; [destruct Hs|]. unfold weight. cbn [filter fst].
    pose proof (weight_nonneg l p) as Hw. assert (0 <= weight l p) by (apply Hw; intros s Hs'; specialize (H s (or_intror Hs')); lia). unfold weight in H0.
    destruct Hs as [E|Hs].
    + injection E as -> ->. destruct (list_eq_dec string_dec p p); [cbn [map fold_right snd]; lia|congruence].
    + specialize (IH (fun s Hs' => H s (or_intror Hs')) Hs). unfold weight in IH. pose proof (H (q, y) (or_introl eq_refl)) as (_ & _ & Hy). cbn [snd] in Hy.
      destruct (list_eq_dec string_dec q p); cbn [map fold_right snd]; lia.
Qed.

Lemma total_value samples : forall g, g_total (fold_left (fun g s => add_stack g (fst s) (snd s)) samples g) =
  g_total g + total (filter (fun s => match fst s with [] => false | _ => true end) samples).
Proof.
  induction samples as [|[st v] l IH]; intros g; cbn [fold_left filter fst snd]; [unfold total; cbn; lia|]. rewrite IH.
  destruct st as [|x st]; cbn [add_stack]; [reflexivity|]. destruct (g_root g). cbn [g_total]. unfold total. cbn [map fold_right snd]. lia.
Qed.

(** the file *)
Lemma join_lines (l : list string) : l <> [] ->
  (String.concat (String (Ascii.ascii_of_nat 10) "") l ++ String (Ascii.ascii_of_nat 10) "")%string = String.concat "" (map (fun s => s ++ String (Ascii.ascii_of_nat 10) "")%string l).
Proof.
  assert (A : forall a b c : string, ((a ++ b) ++ c = a ++ (b ++ c))%string) by (intros a b c; induction a as [|x a IH]; [reflexivity|cbn; rewrite IH; reflexivity]).
  induction l as [|x l IH]; [congruence|]. intros _. destruct l as [|y l]; [cbn; reflexivity|].
  specialize (IH ltac:(discriminate)). set (nl := String (Ascii.ascii_of_nat 10) "") in *.
  change (String.concat nl (x :: y :: l)) with (x ++ nl ++ String.concat nl (y :: l))%string.
  change (String.concat "" (map (fun s => s ++ nl)%string (x :: y :: l))) with ((x ++ nl) ++ "" ++ String.concat "" (map (fun s => s ++ nl)%string (y :: l)))%string.
  rewrite <- IH, !A. reflexivity.
Qed.
Theorem file_content samples : (forall s, In s samples -> ~ In "root" (fst s)) ->
  (content (build samples) = None <-> forall p, p <> [] -> weight samples p <= 0) /\
  (forall s, content (build samples) = Some s -> s = String.concat "" (map (fun l => file_line (fst l) (snd l)) (folded (build samples)))).
Proof.
  intros H. destruct (folded_counts samples H) as [_ Hc]. destruct (build_inv samples H) as (v & k & E & _ & _ & _).
  assert (Hk : k = [] -> folded (build samples) = []) by (intros ->; unfold folded; rewrite E; reflexivity).
  assert (Hcont : content (build samples) = match folded (build samples) with [] => None | l => Some (String.concat (String (Ascii.ascii_of_nat 10) "") (map render l) ++ String (Ascii.ascii_of_nat 10) "")%string end).
  { unfold content. destruct (fkids (g_root (build samples))) as [|f r] eqn:Ek; [|reflexivity]. rewrite E in Ek. cbn [fkids] in Ek. rewrite (Hk Ek). reflexivity. }
  rewrite Hcont. split.
  - split.
    + intros Hn p Hp. destruct (folded (build samples)) as [|x l] eqn:Ef; [|discriminate]. destruct (Z_le_gt_dec (weight samples p) 0) as [L|G]; [exact L|].
      exfalso. apply (proj2 (Hc p (weight samples p))). split; [exact Hp|]. split; [reflexivity|lia].
    + intros Hw. destruct (folded (build samples)) as [|[p n] l] eqn:Ef; [reflexivity|]. destruct (proj1 (Hc p n) (or_introl eq_refl)) as (A & B & C). specialize (Hw p A). lia.
  - intros s Hs. destruct (folded (build samples)) as [|x l] eqn:Ef; [discriminate|]. assert (Hs' : s = (String.concat (String (Ascii.ascii_of_nat 10) "") (map render (x :: l)) ++ String (Ascii.ascii_of_nat 10) "")%string) by congruence.
    rewrite Hs', join_lines by discriminate. rewrite map_map. f_equal. apply map_ext. intros [p n]. unfold render, file_line. cbn [fst snd].
    assert (A : forall a b c : string, ((a ++ b) ++ c = a ++ (b ++ c))%string) by (intros a b c; induction a as [|y a IH]; [reflexivity|cbn; rewrite IH; reflexivity]).
    rewrite !A. reflexivity.
Qed.
