(** * Proofs about M_Tproto. *)
From Coq Require Import List Bool String ZArith Lia Sorting.Sorted.
From Verif Require Import M_Go P_Go M_Tproto S_Tproto.
Import ListNotations.
Open Scope list_scope.
Open Scope Z_scope.

Lemma Forall2_impl {A B} (R1 R2 : A -> B -> Prop) l1 l2 : (forall a b, R1 a b -> R2 a b) -> Forall2 R1 l1 l2 -> Forall2 R2 l1 l2.
Proof. intros H. induction 1; constructor; auto. Qed.
Fixpoint show_list (prev : Z) (depth : nat) (l : list tmember) : list tline := match l with [] => [] | x :: l' => show_member prev depth x ++ show_list prev depth l' end.
Lemma show_list_flat prev depth l : flat_map (show_member prev depth) l = show_list prev depth l.
Proof. induction l as [|x l IH]; cbn; [reflexivity|]. rewrite IH. reflexivity. Qed.
Lemma show_member_rec prev depth n off bits s rn ms :
  show_member prev depth (TMember n off bits (TRec s rn ms)) = LOpen depth s rn :: show_list (u32 (off + prev)) (S depth) ms ++ [LClose depth n].
Proof. cbn [show_member]. f_equal. f_equal. induction ms as [|x ms IH]; cbn [show_list]; [reflexivity|]. rewrite IH. reflexivity. Qed.
(** leaf paths in order; [i]: the position of the first member of the list *)
Fixpoint paths_m (m : tmember) {struct m} : list (list nat) :=
  match m with
  | TMember _ _ _ t =>
      match t with
      | TLeaf _ _ => [[]]
      | TRec _ _ ms => (fix go (i : nat) (l : list tmember) : list (list nat) := match l with [] => [] | x :: l' => map (cons i) (paths_m x) ++ go (S i) l' end) 0%nat ms
      end
  end.
Fixpoint paths (i : nat) (l : list tmember) : list (list nat) := match l with [] => [] | x :: l' => map (cons i) (paths_m x) ++ paths (S i) l' end.
Lemma paths_m_rec n off bits s rn ms : paths_m (TMember n off bits (TRec s rn ms)) = paths 0 ms.
Proof. cbn [paths_m]. generalize 0%nat. induction ms as [|x ms IH]; intros i; [reflexivity|]. cbn [paths]. f_equal. Qed.

(** induction over members *)
Section Ind.
  Variable P : tmember -> Prop.
  Hypothesis Hleaf : forall n o b k sz, P (TMember n o b (TLeaf k sz)).
  Hypothesis Hrec : forall n o b s rn ms, Forall P ms -> P (TMember n o b (TRec s rn ms)).
  Fixpoint tm_ind (m : tmember) : P m :=
    match m with
    | TMember n o b t =>
        match t with
        | TLeaf k sz => Hleaf n o b k sz
        | TRec s rn ms => Hrec n o b s rn ms ((fix go (l : list tmember) : Forall P l := match l with [] => Forall_nil P | x :: l' => Forall_cons x (tm_ind x) (go l') end) ms)
        end
    end.
End Ind.

(** from a member down: [p] is a path below it *)
Definition below (m : tmember) (p : list nat) : option (tmember * Z) :=
  match p with [] => Some (m, tm_off m)
  | _ => match tm_type m with TRec _ _ ms' => match at_path ms' p with Some (m', o) => Some (m', tm_off m + o) | None => None end | TLeaf _ _ => None end end.
Lemma at_path_below ms i p : at_path ms (i :: p) = match nth_error ms i with Some m => below m p | None => None end.
Proof. reflexivity. Qed.
Definition leaf_below (m : tmember) (p : list nat) : Prop := exists m' o, below m p = Some (m', o) /\ is_leaf m'.
Definition leaf_path (ms : list tmember) (p : list nat) : Prop := exists m' o, at_path ms p = Some (m', o) /\ is_leaf m'.

Lemma paths_iff i l : Forall (fun m => forall p, In p (paths_m m) <-> leaf_below m p) l ->
  forall p, In p (paths i l) <-> exists k q m, p = (i + k)%nat :: q /\ nth_error l k = Some m /\ leaf_below m q.
Proof.
  intros H. revert i. induction H as [|x l Hx Hl IH]; intros i p; cbn [paths].
  - split; [intros []|]. intros (k & q & m & _ & Hk & _). destruct k; discriminate.
  - rewrite in_app_iff, in_map_iff, IH. split.
    + intros [(q & <- & Hq)|(k & q & m & -> & Hk & Hm)].
      * exists 0%nat, q, x. rewrite Nat.add_0_r. split; [reflexivity|]. split; [reflexivity|]. apply Hx. exact Hq.
      * exists (S k), q, m. split; [f_equal; lia|]. auto.
    + intros (k & q & m & -> & Hk & Hm). destruct k as [|k].
      * left. cbn in Hk. injection Hk as <-. exists q. rewrite Nat.add_0_r. split; [reflexivity|]. apply Hx. exact Hm.
      * right. exists k, q, m. split; [f_equal; lia|]. auto.
Qed.
Lemma paths_m_iff m : forall p, In p (paths_m m) <-> leaf_below m p.
Proof.
  induction m as [n o b k sz|n o b s rn ms IH] using tm_ind; intros p.
  - cbn [paths_m]. unfold leaf_below, below. split.
    + intros [<-|[]]. eexists _, _. split; [reflexivity|]. exact I.
    + intros (m' & o' & E & _). destruct p; [left; reflexivity|]. cbn in E. discriminate.
  - rewrite paths_m_rec, (paths_iff 0 ms IH). cbn [Nat.add]. unfold leaf_below at 2. unfold below. cbn [tm_type tm_off]. split.
    + intros (k & q & m & -> & Hk & m' & o' & E & Hl). rewrite at_path_below, Hk, E. eauto.
    + intros (m' & o' & E & Hl). destruct p as [|i p]; [injection E as <- <-; destruct Hl|].
      rewrite at_path_below in E. destruct (nth_error ms i) as [x|] eqn:Ei; [|discriminate]. exists i, p, x. split; [reflexivity|]. split; [exact Ei|].
      destruct (below x p) as [[y oy]|] eqn:Eb; [|discriminate]. injection E as <- <-. exists y, oy. auto.
Qed.
Lemma paths_all ms p : In p (paths 0 ms) <-> leaf_path ms p.
Proof.
  rewrite (paths_iff 0 ms) by (apply Forall_forall; intros x _; apply paths_m_iff). cbn [Nat.add]. unfold leaf_path. split.
  - intros (k & q & m & -> & Hk & m' & o' & E & Hl). rewrite at_path_below, Hk. eauto.
  - intros (m' & o' & E & Hl). destruct p as [|i p]; [discriminate|]. rewrite at_path_below in E. destruct (nth_error ms i) as [x|] eqn:Ei; [|discriminate].
    exists i, p, x. split; [reflexivity|]. split; [exact Ei|]. exists m', o'. auto.
Qed.
Lemma sorted_map_cons i l : StronglySorted before l -> StronglySorted before (map (cons i) l).
Proof.
  induction 1 as [|x l Hl IH Hx]; cbn; constructor; [exact IH|]. apply Forall_map. eapply Forall_impl; [|exact Hx]. intros y Hy. right. auto.
Qed.
Lemma sorted_app {A} (R : A -> A -> Prop) l1 l2 : StronglySorted R l1 -> StronglySorted R l2 -> (forall x y, In x l1 -> In y l2 -> R x y) -> StronglySorted R (l1 ++ l2).
Proof.
  induction 1 as [|x l Hl IH Hx]; intros H2 H; cbn; [exact H2|]. constructor.
  - apply IH; [exact H2|]. intros a b Ha Hb. apply H; [right; exact Ha|exact Hb].
  - apply Forall_app. split; [exact Hx|]. apply Forall_forall. intros y Hy. apply H; [left; reflexivity|exact Hy].
Qed.
Lemma paths_head l : forall i p, In p (paths i l) -> exists k q, p = k :: q /\ (i <= k)%nat.
Proof.
  induction l as [|x l IH]; intros i p; cbn [paths]; [intros []|]. rewrite in_app_iff, in_map_iff. intros [(q & <- & _)|H]; [eauto|].
  apply IH in H. destruct H as (k & q & -> & Hk). exists k, q. split; [reflexivity|lia].
Qed.
Lemma paths_sorted l : Forall (fun m => StronglySorted before (paths_m m)) l -> forall i, StronglySorted before (paths i l).
Proof.
  induction 1 as [|x l Hx Hl IH]; intros i; cbn [paths]; [constructor|]. apply sorted_app; [apply sorted_map_cons; exact Hx|apply IH|].
  intros p q Hp Hq. apply in_map_iff in Hp. destruct Hp as (p' & <- & _). apply paths_head in Hq. destruct Hq as (k & q' & -> & Hk). left. lia.
Qed.
Lemma paths_m_sorted m : StronglySorted before (paths_m m).
Proof.
  induction m as [n o b k sz|n o b s rn ms IH] using tm_ind; [cbn; repeat constructor|]. rewrite paths_m_rec. apply paths_sorted. exact IH.
Qed.

(** the lines *)
Lemma member_lines_app a b : member_lines (a ++ b) = member_lines a ++ member_lines b.
Proof. apply filter_app. Qed.
Definition fits (prev : Z) (m : tmember) : Prop :=
  0 <= prev /\ prev mod 8 = 0 /\ forall p m' o, below m p = Some (m', o) -> 0 <= prev + o < 2 ^ 32 /\ 0 <= tm_off m' /\ (~ is_leaf m' -> tm_off m' mod 8 = 0).
Definition shows_at (prev : Z) (depth : nat) (m : tmember) (l : tline) (p : list nat) : Prop :=
  exists m' o, below m p = Some (m', o) /\ line_of (depth + List.length p) m' (prev + o) l.
Lemma lines_list prev depth ms : Forall (fun m => Forall2 (shows_at prev depth m) (member_lines (show_member prev depth m)) (paths_m m)) ms ->
  forall i, Forall2 (fun l p => exists k q m, p = (i + k)%nat :: q /\ nth_error ms k = Some m /\ shows_at prev depth m l q) (member_lines (show_list prev depth ms)) (paths i ms).
Proof.
  induction 1 as [|x ms Hx Hl IH]; intros i; cbn [show_list paths]; [constructor|]. rewrite member_lines_app. apply Forall2_app.
  - assert (G : forall a b, Forall2 (shows_at prev depth x) a b -> Forall2 (fun l p => exists k q m, p = (i + k)%nat :: q /\ nth_error (x :: ms) k = Some m /\ shows_at prev depth m l q) a (map (cons i) b)).
    { induction 1; cbn; constructor; auto. exists 0%nat, y, x. rewrite Nat.add_0_r. auto. }
    apply G. exact Hx.
  - eapply Forall2_impl; [|apply IH]. cbv beta. intros l p (k & q & m & -> & Hk & Hs). exists (S k), q, m. split; [f_equal; lia|]. auto.
Qed.
Lemma land7 z : Z.land z 7 = z mod 8.
Proof. change 7 with (Z.ones 3). rewrite Z.land_ones by lia. reflexivity. Qed.
Lemma lines_member m : forall prev depth, fits prev m -> Forall2 (shows_at prev depth m) (member_lines (show_member prev depth m)) (paths_m m).
Proof.
  induction m as [n o b k sz|n o b s rn ms IH] using tm_ind; intros prev depth (Hp & Ha & Hf).
  - cbn. constructor; [|constructor]. destruct (Hf [] _ _ eq_refl) as (Hr & Ho & _). cbn [tm_off] in *.
    eexists _, _. split; [reflexivity|]. cbn [tm_off List.length tm_type line_of tm_name tm_bits]. unfold line_of. cbn [tm_type tm_name tm_bits].
    unfold member_line. rewrite Nat.add_0_r, land7. unfold u32. rewrite Z.mod_small by (change W32 with (2 ^ 32); lia).
    rewrite (Z.add_comm o prev). f_equal. destruct (b =? 0); [reflexivity|]. f_equal. f_equal.
    rewrite Z.add_mod, Ha by lia. cbn [Z.add]. rewrite Z.mod_mod by lia. reflexivity.
  - rewrite show_member_rec, paths_m_rec. destruct (Hf [] _ _ eq_refl) as (Hr & Ho & Hm). cbn [tm_off] in *. specialize (Hm (fun X => X)).
    cbn [member_lines filter]. fold (member_lines (show_list (u32 (o + prev)) (S depth) ms ++ [LClose depth n])).
    rewrite member_lines_app. cbn [member_lines filter]. rewrite app_nil_r.
    assert (E : u32 (o + prev) = prev + o) by (unfold u32; rewrite Z.add_comm; apply Z.mod_small; change W32 with (2 ^ 32); lia). rewrite E.
    assert (Hms : Forall (fun m => fits (prev + o) m) ms).
    { apply Forall_forall. intros x Hx. apply In_nth_error in Hx. destruct Hx as (i & Hi). split; [lia|]. split.
      - rewrite Z.add_mod, Ha, Hm by lia. reflexivity.
      - intros p m' o' Hb. assert (X := Hf (i :: p) m' (o + o')). unfold below in X. cbn [tm_type tm_off] in X. rewrite at_path_below, Hi, Hb in X.
        specialize (X eq_refl). destruct X as (X1 & X2 & X3). rewrite <- Z.add_assoc. auto. }
    assert (G := lines_list (prev + o) (S depth) ms).
    assert (G1 : Forall (fun m => Forall2 (shows_at (prev + o) (S depth) m) (member_lines (show_member (prev + o) (S depth) m)) (paths_m m)) ms).
    { rewrite Forall_forall in *. intros x Hx. apply IH; auto. }
    specialize (G G1 0%nat). eapply Forall2_impl; [|exact G]. cbv beta. cbn [Nat.add]. intros l p (k & q & x & -> & Hk & m' & o' & Eb & Hl).
    exists m', (o + o'). unfold below. cbn [tm_type tm_off]. rewrite at_path_below, Hk, Eb. split; [reflexivity|].
    cbn [List.length]. replace (depth + S (List.length q))%nat with (S depth + List.length q)%nat by lia. rewrite Z.add_assoc. exact Hl.
Qed.
Lemma listing s rn ms : layout_ok ms -> exists ps,
  Forall2 (fun l p => exists m o, at_path ms p = Some (m, o) /\ line_of (List.length p) m o l) (member_lines (show_rec s rn ms)) ps /\
  StronglySorted before ps /\ forall p, In p ps <-> exists m o, at_path ms p = Some (m, o) /\ is_leaf m.
Proof.
  intros H. exists (paths 0 ms). split; [|split; [|exact (paths_all ms)]].
  - unfold show_rec. cbn [member_lines filter]. fold (member_lines (flat_map (show_member 0 1) ms ++ [LClose 0 EmptyString])).
    rewrite member_lines_app. cbn [member_lines filter]. rewrite app_nil_r, show_list_flat.
    assert (G := lines_list 0 1 ms).
    assert (G1 : Forall (fun m => Forall2 (shows_at 0 1 m) (member_lines (show_member 0 1 m)) (paths_m m)) ms).
    { apply Forall_forall. intros x Hx. apply lines_member. apply In_nth_error in Hx. destruct Hx as (i & Hi). split; [lia|]. split; [reflexivity|].
      intros p m' o Hb. rewrite Z.add_0_l. apply (H (i :: p) m' o). rewrite at_path_below, Hi. exact Hb. }
    eapply Forall2_impl; [|exact (G G1 0%nat)]. cbv beta. cbn [Nat.add]. intros l p (k & q & x & -> & Hk & m' & o' & Eb & Hl).
    exists m', o'. rewrite at_path_below, Hk. split; [exact Eb|]. rewrite Z.add_0_l in Hl. exact Hl.
  - apply paths_sorted. apply Forall_forall. intros x _. apply paths_m_sorted.
Qed.
