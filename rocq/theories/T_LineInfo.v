(** * Property C85: the position shown for an address. *)
From Coq Require Import List Bool String ZArith Lia Sorted.
From Verif Require Import M_Go P_Go M_Kallsyms S_Kallsyms P_Kallsyms M_Cache M_A2l S_A2l P_A2l M_Line P_Line M_LineInfo S_LineInfo P_LineInfo.
Import ListNotations.
Open Scope string_scope.
Open Scope Z_scope.

(** C85, BPF code.  An address inside a BPF function (one that no other function overlaps), with some line of the function at or before it, is shown with
    that function's name, its distance from the function's start, and the line that begins at the greatest address at or before it; the kernel's symbols and
    debug data play no part. *)
Theorem C85_bpf_position : forall ent b dir progs ks ok s start len name (tab : list (Z * line)) a,
  In (new_func start len name tab) progs -> (forall g, In g progs -> pf_start g <= a < pf_end g -> g = new_func start len name tab) ->
  Sorted Z.le (map fst tab) -> 0 <= start -> start + len <= 2 ^ 64 -> start <= a < start + len -> (exists p, In p tab /\ start <= fst p <= a) ->
  exists b0 l, In (b0, l) tab /\ start <= b0 <= a /\ (forall p, In p tab -> fst p <= a -> fst p <= b0) /\
    line_info ent b dir progs ks ok s a =
      (PPlace {| p_addr := a; p_func := name; p_off := a - start; p_file := short_name (l_file l); p_line := l_num l; p_prog := true; p_vml := false |}, s).
Proof.
  intros ent b dir progs ks ok s start len name tab a Hin Hd Hs H0 Hl Ha Hp. destruct (get_covering start len name tab Hs a Ha Hp) as (b0 & l & A1 & A2 & A3 & A4).
  exists b0, l. do 3 (split; [assumption|]). unfold line_info.
  rewrite (progs_in progs a (new_func start len name tab)), A4.
  - cbn [li_func li_start li_file li_line]. do 3 f_equal. unfold u64. change W64 with (2 ^ 64). apply Z.mod_small. lia.
  - intros g Hg Hc. apply Hd; [exact Hg|]. unfold contains_addr in Hc. apply andb_true_iff in Hc as [C1 C2]. apply Z.leb_le in C1. apply Z.ltb_lt in C2. lia.
  - exact Hin.
  - unfold contains_addr, new_func. cbn [pf_start pf_end]. rewrite andb_true_iff, Z.leb_le, Z.ltb_lt. lia.
Qed.
Print Assumptions C85_bpf_position.

(** C85, kernel code.  For every sequence of look-ups (with a cache filled during this boot, saves failing or not), every address that lies in no BPF
    function and between the first and the last listed symbol is shown with its symbol and the distance from it; the file and line, when shown, are those of
    the debug data for the code running there (of the kernel or of the symbol's module), without the build directory; when the debug data has a line
    it is shown, unless saving the cache fails.
    Missing: addresses outside the listed symbols (refuted below), caches of another boot (C60). *)
Theorem C85_kernel_position_partial : forall ent b dir progs ls ks c l rs s', boot_ok b -> new_kallsyms ls = Some ks -> (forall s, In s (text_syms ls) -> 0 <= fst s) ->
  of_this_boot b (module_of ks) c -> line_infos ent b dir progs ks (Some (fresh c)) l = (rs, s') ->
  List.length rs = List.length l /\
  forall i a ok r, nth_error l i = Some (a, ok) -> nth_error rs i = Some r -> between ls a -> in_no_function progs a -> 0 <= a < 2 ^ 64 ->
    exists addr name md p, symbol_of ls a addr name md /\ r = PPlace p /\ p_addr p = a /\ p_off p = a - addr /\ p_prog p = false /\ (name <> "" -> p_func p = name) /\
      (p_vml p = true -> exists l, true_line b (Some md) a = Some l /\ shown_file dir (d_file (ent l)) (p_file p) /\ p_line p = d_num (ent l)) /\
      (p_vml p = false -> p_file p = "") /\
      (ok = true -> forall l, true_line b (Some md) a = Some l -> p_vml p = true).
Proof.
  intros ent b dir progs ls ks c l rs s' Hb HK Hpos Hc H. assert (HG : good b (module_of ks) (fresh c)) by (split; [exact Hc|intros m r E; discriminate E]).
  destruct (infos_good ent b dir progs ks Hb l _ _ _ HG H) as [L K]. split; [exact L|]. intros i a ok r Hl Hr Hbt Hn Ha.
  destruct (K i a ok r Hl Hr) as (s1 & s2 & G1 & E). exact (kernel_place ent b dir progs ks Hb ls ok s1 a r s2 HK G1 Hbt Hn Ha Hpos E).
Qed.
Print Assumptions C85_kernel_position_partial.
(** Without debug data the symbol and the distance are shown all the same, and no file. *)
Theorem C85_without_debug_data : forall ent b dir progs ls ks ok a, new_kallsyms ls = Some ks -> (forall s, In s (text_syms ls) -> 0 <= fst s) ->
  between ls a -> in_no_function progs a -> 0 <= a < 2 ^ 64 ->
  exists addr name md, symbol_of ls a addr name md /\
    line_info ent b dir progs ks ok None a = (PPlace {| p_addr := a; p_func := name; p_off := a - addr; p_file := ""; p_line := 0; p_prog := false; p_vml := false |}, None).
Proof.
  intros ent b dir progs ls ks ok a HK Hpos Hbt Hn Ha. destruct (find_symbol ls ks a HK Hbt) as (e & He & Hs). exists (kaddr e), (kname e), (kmod e). split; [exact Hs|].
  unfold line_info. rewrite (no_function progs a Hn), He. cbn [with_line sym_place]. do 3 f_equal. unfold u64. change W64 with (2 ^ 64). apply Z.mod_small.
  destruct Hs as ((pre & post & Ets & _) & _ & Hle & _). specialize (Hpos (kaddr e, kname e) ltac:(rewrite Ets; apply in_or_app; right; left; reflexivity)). cbn [fst] in Hpos. lia.
Qed.
Print Assumptions C85_without_debug_data.
(** The build directory: when __x64_sys_bpf is in <dir>kernel/bpf/syscall.c, a file <dir>x of the kernel is shown as x, and a file outside <dir> whole. *)
Theorem C85_build_directory : forall dir, build_dir (dir ++ "kernel/bpf/syscall.c") = Some dir /\
  (forall x, rel_file dir (dir ++ x) = x) /\ (forall f, (forall x, f <> dir ++ x) -> rel_file dir f = f).
Proof.
  intros dir. split; [exact (build_dir_of dir)|]. split.
  - intros x. apply (shown_unique dir (dir ++ x)); [apply rel_shown|left; reflexivity].
  - intros f Hf. apply (shown_unique dir f); [apply rel_shown|right; split; [reflexivity|exact Hf]].
Qed.
Print Assumptions C85_build_directory.
(** Refuted outside the listed symbols: an address below the first or above the last symbol for which the debug data has a line crashes the look-up. *)
Theorem C85_outside_symbols_crashes_refuted : forall ent b dir progs ls ks ok s a l, boot_ok b -> new_kallsyms ls = Some ks -> text_syms ls <> [] ->
  (forall x, In x (text_syms ls) -> a < fst x) \/ (forall x, In x (text_syms ls) -> fst x < a) -> in_no_function progs a ->
  aget Z.eqb a (t_cache s) = None -> true_line b None a = Some l -> fst (line_info ent b dir progs ks ok (Some s) a) = PPanic.
Proof.
  intros ent b dir progs ls ks ok s a l [Hk _] HK Hne Ho Hn Hc Ht. unfold line_info. rewrite (no_function progs a Hn). destruct (find_out_of_range ls ks a HK Hne Ho) as [-> _].
  unfold with_line, get. cbn [option_map]. rewrite Hc. cbn [get_mod]. rewrite eff_linked by exact Hk. cbn [true_line] in Ht. rewrite Ht. reflexivity.
Qed.
Print Assumptions C85_outside_symbols_crashes_refuted.
(** Refuted inside a BPF function before its first line (C38): the look-up crashes, and so does everything that shows positions. *)
Theorem C85_before_first_line_crashes_refuted : forall ent b dir progs ks ok s start len name (tab : list (Z * line)) a,
  In (new_func start len name tab) progs -> (forall g, In g progs -> pf_start g <= a < pf_end g -> g = new_func start len name tab) ->
  Sorted Z.le (map fst tab) -> start <= a < start + len -> (forall p, In p tab -> start <= fst p -> a < fst p) ->
  fst (line_info ent b dir progs ks ok s a) = PPanic.
Proof.
  intros ent b dir progs ks ok s start len name tab a Hin Hd Hs Ha Hno. unfold line_info. rewrite (progs_in progs a (new_func start len name tab)).
  - rewrite (get_crash start len name tab Hs a Ha Hno). reflexivity.
  - intros g Hg Hc. apply Hd; [exact Hg|]. unfold contains_addr in Hc. apply andb_true_iff in Hc as [C1 C2]. apply Z.leb_le in C1. apply Z.ltb_lt in C2. lia.
  - exact Hin.
  - unfold contains_addr, new_func. cbn [pf_start pf_end]. rewrite andb_true_iff, Z.leb_le, Z.ltb_lt. lia.
Qed.
Print Assumptions C85_before_first_line_crashes_refuted.

(** A kernel with two functions, a module and a BPF program. *)
Definition klines : list (list string) :=
  [["1000"; "T"; "_stext"]; ["1040"; "T"; "tcp_connect"]; ["2000"; "t"; "nft_eval"; "nf_tables"]; ["3000"; "t"; "bpf_prog_main"; "bpf"]; ["4000"; "T"; "_etext"]].
Definition kboot : boot := {| b_vmlinux := fun a => if a =? 0x845 then Some 1 else if a =? 0x100 then Some 3 else None; b_kaslr := {| k_kaddr := 0x1000; k_saddr := 0x800 |};
  b_mods := fun m => if String.eqb m "nf_tables" then MFound (Some (fun a => if a =? 0x10 then Some 2 else None)) {| k_kaddr := 0x2000; k_saddr := 0 |} else MMissing |}.
Definition kent (l : Z) : dline := if l =? 1 then {| d_file := "/build/linux/net/ipv4/tcp.c"; d_func := "tcp_connect"; d_num := 77 |} else {| d_file := "/dkms/nft.c"; d_func := "nft_eval"; d_num := 5 |}.
Definition kprogs : list pfunc := [new_func 0x3000 64 "main" [(0x3000, {| l_file := "./x.c"; l_num := 3 |}); (0x3010, {| l_file := "./x.c"; l_num := 4 |})]].
Definition kks := Eval vm_compute in new_kallsyms klines.
Example demo_C85 : boot_ok kboot /\ build_dir "/build/linux/kernel/bpf/syscall.c" = Some "/build/linux/" /\
  exists ks, new_kallsyms klines = Some ks /\ between klines 0x1045 /\ in_no_function kprogs 0x1045 /\
    fst (line_infos kent kboot "/build/linux/" kprogs ks (Some (fresh [])) [(0x1045, true); (0x2010, true); (0x3014, true); (0x1020, true); (0x900, true)]) =
    [PPlace {| p_addr := 0x1045; p_func := "tcp_connect"; p_off := 5; p_file := "net/ipv4/tcp.c"; p_line := 77; p_prog := false; p_vml := true |};
     PPlace {| p_addr := 0x2010; p_func := "nft_eval"; p_off := 16; p_file := "/dkms/nft.c"; p_line := 5; p_prog := false; p_vml := true |};
     PPlace {| p_addr := 0x3014; p_func := "main"; p_off := 20; p_file := "x.c"; p_line := 4; p_prog := true; p_vml := false |};
     PPlace {| p_addr := 0x1020; p_func := "_stext"; p_off := 32; p_file := ""; p_line := 0; p_prog := false; p_vml := false |};
     PPanic].
Proof.
  split; [split; [repeat split; cbn; lia|intros m d k; cbn; destruct (String.eqb m "nf_tables"); intros E; [injection E as _ <-; repeat split; cbn; lia|discriminate]]|].
  split; [vm_compute; reflexivity|]. eexists. split; [change (new_kallsyms klines) with kks; vm_compute; reflexivity|].
  split; [|split; [|vm_compute; reflexivity]].
  - split; [exists (0x1000, "_stext")|exists (0x4000, "_etext")]; (split; [vm_compute; tauto|discriminate]).
  - intros f [<-|[]] H. cbn in H. lia.
Qed.
