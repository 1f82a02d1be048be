(** * C58, C48: the shadow-stack instructions of the listings are those of Cet.v *)
From Coq Require Import ZArith List String Ascii Bool Lia.
From Verif Require Import ListUtil AsmLex AsmRead AsmIsaX86 AsmDir Cet AsmShadow P_AsmText.
Import ListNotations.
Open Scope string_scope.
Open Scope Z_scope.
Open Scope list_scope.

(** the configurations with shadow stacks *)
Definition shadowed : cond := CAnd (CNot (Df "__i386__")) shstk.

Definition sop_eq_dec (a b : sop) : {a = b} + {a <> b}.
Proof. repeat decide equality. Defined.

Definition when {A} (b : bool) (l : list A) : list A := if b then l else [].
Notation unless b := (when (negb b)).

Definition save_ops (tsx grd : bool) : list sop :=
  [SLea "rsp" "rsp" (-64)] ++ unless tsx [SSt "mxcsr" "rsp" 0; SSt "x87cw" "rsp" 4] ++
  when grd [SMov "rcx" "fs"; SSt "rcx" "rsp" 8] ++
  [SSt "r12" "rsp" 16; SSt "r13" "rsp" 24; SSt "r14" "rsp" 32; SSt "r15" "rsp" 40; SSt "rbx" "rsp" 48;
   SSt "rbp" "rsp" 56; SLea "rsp" "rsp" (-8); SRdssp "rcx"; SSt "rcx" "rsp" 0; SMov "rax" "rsp"; SMov "rsp" "rdi";
   SLd "rcx" "rsp" 0; SLea "rsp" "rsp" 8; SRstor "rcx" (-8); SSave].
Definition load_ops (tsx grd ilp : bool) (n : Z) : list sop :=
  unless tsx [SLd "mxcsr" "rsp" 0; SLd "x87cw" "rsp" 4] ++
  when grd [SLd "rdx" "rsp" 8; SMov "fs" "rdx"] ++
  [SLd "r12" "rsp" 16; SLd "r13" "rsp" 24; SLd "r14" "rsp" 32; SLd "r15" "rsp" 40; SLd "rbx" "rsp" 48;
   SLd "rbp" "rsp" 56; SLea "rsp" "rsp" n] ++
  (if ilp then [SShl "rsi" 32; SOr "rax" "rsi"] else [SMov "rdx" "rsi"]) ++
  [SMov "rdi" "rax"; SJmp "r8"].
Definition jump_ops (tsx grd ilp : bool) : list sop :=
  save_ops tsx grd ++ [SImm "rcx" 1; SInc "rcx"; SLd "r8" "rsp" 64] ++ load_ops tsx grd ilp 72.
Definition ontop_ops (tsx grd ilp : bool) : list sop :=
  [SMov "r8" "rdx"] ++ save_ops tsx grd ++ load_ops tsx grd ilp 64.
Definition tramp_ops : list sop := [SCall "jmp *%rbp"; SJmp "rbx"; SLab "finish"; SImm "rdi" 0; SExit].
Definition make_ops (grd : bool) : list sop :=
  [SLd "r9" "rdi" (-8); SMov "rax" "rdi"; SAnd "rax" (-16); SLea "rax" "rax" (-72); SSt "rdx" "rax" 48;
   SSt "mxcsr" "rax" 0; SSt "x87cw" "rax" 4] ++
  when grd [SMov "rcx" "fs"; SSt "rcx" "rsp" 8] ++
  [SAdr "rcx" "trampoline"; SSt "rcx" "rax" 64; SAdr "rcx" "finish"; SSt "rcx" "rax" 56;
   SRdssp "r8"; SRstor "r9" (-8); SSave; SCall "jmp trampoline"; SPop "rax" 56; SRdssp "r9"; SRstor "r8" (-8); SSave;
   SLea "rax" "rax" (-8); SSt "r9" "rax" 0; SRet; SLab "trampoline"] ++ tramp_ops.

(** ** Reading *)

Definition opsb (a : option (list sop)) (b : list sop) : bool :=
  match a with Some l => if list_eq_dec sop_eq_dec l b then true else false | None => false end.
Lemma opsb_eq a b : opsb a b = true -> a = Some b.
Proof. unfold opsb. destruct a as [l|]; [|discriminate]. destruct (list_eq_dec sop_eq_dec l b); [congruence|discriminate]. Qed.

Definition f_jump := "jump_x86_64_sysv_elf_gas.S".
Definition f_ontop := "ontop_x86_64_sysv_elf_gas.S".
Definition f_make := "make_x86_64_sysv_elf_gas.S".

Definition ss_atoms : list atom :=
  nubs (atoms_of 2 f_jump ++ atoms_of 2 f_ontop ++ atoms_of 2 f_make ++ cond_atoms shadowed ++
        cond_atoms tsx ++ cond_atoms guard ++ cond_atoms ilp32).

Definition ss_okb (o : config) : bool :=
  if holds o shadowed then
    opsb (s_routine o f_jump "jump_fcontext") (jump_ops (holds o tsx) (holds o guard) (holds o ilp32)) &&
    opsb (s_routine o f_ontop "ontop_fcontext") (ontop_ops (holds o tsx) (holds o guard) (holds o ilp32)) &&
    opsb (s_routine o f_make "make_fcontext") (make_ops (holds o guard)) &&
    opsb (s_routine o f_make "trampoline") tramp_ops
  else true.

Lemma ss_checked : forallb (fun v => ss_okb (tabled v)) (assigns ss_atoms) = true.
Proof. vm_compute. reflexivity. Qed.

Local Opaque lines_of atoms_of parsed directory listings.
Lemma s_routine_agree o o' n lab :
  (forall a, In a (atoms_of 2 n) -> o a = o' a) -> s_routine o n lab = s_routine o' n lab.
Proof.
  intros H.
  exact (f_equal (fun x => match match x with
                  | Some ls => match joined ls with Some ts => s_decode (S (List.length ts)) ts | None => None end
                  | None => None
                  end with Some l => s_from lab l | None => None end) (lines_agree o o' 2 n H)).
Qed.

Lemma ss_read o : holds o shadowed = true ->
  s_routine o f_jump "jump_fcontext" = Some (jump_ops (holds o tsx) (holds o guard) (holds o ilp32)) /\
  s_routine o f_ontop "ontop_fcontext" = Some (ontop_ops (holds o tsx) (holds o guard) (holds o ilp32)) /\
  s_routine o f_make "make_fcontext" = Some (make_ops (holds o guard)) /\
  s_routine o f_make "trampoline" = Some tramp_ops.
Proof.
  intros H. pose proof ss_checked as CHK. rewrite forallb_forall in CHK.
  set (v := map (fun a => (a, o a)) ss_atoms). specialize (CHK v (assigns_all o _)).
  assert (AG : forall a, In a (atoms_of 2 f_jump ++ atoms_of 2 f_ontop ++ atoms_of 2 f_make ++ cond_atoms shadowed ++
        cond_atoms tsx ++ cond_atoms guard ++ cond_atoms ilp32) -> o a = tabled v a)
    by (intros a J; apply tabled_agree; apply nubs_in; exact J).
  assert (HS : forall c, incl (cond_atoms c) (cond_atoms shadowed ++ cond_atoms tsx ++ cond_atoms guard ++ cond_atoms ilp32) ->
                 holds o c = holds (tabled v) c).
  { intros c I. apply holds_agree. intros a J. apply AG. do 3 (apply in_or_app; right). apply I, J. }
  unfold ss_okb in CHK.
  rewrite <- (HS shadowed), <- (HS tsx), <- (HS guard), <- (HS ilp32) in CHK
    by (intros a J; repeat (first [apply in_or_app; left; exact J | apply in_or_app; right | exact J])).
  rewrite H in CHK.
  rewrite <- (s_routine_agree o (tabled v) f_jump "jump_fcontext"),
          <- (s_routine_agree o (tabled v) f_ontop "ontop_fcontext"),
          <- (s_routine_agree o (tabled v) f_make "make_fcontext"),
          <- (s_routine_agree o (tabled v) f_make "trampoline") in CHK.
  - repeat (apply andb_true_iff in CHK as [CHK ?]). repeat split; apply opsb_eq; assumption.
  - intros a J. apply AG. do 2 (apply in_or_app; right). apply in_or_app; left. exact J.
  - intros a J. apply AG. do 2 (apply in_or_app; right). apply in_or_app; left. exact J.
  - intros a J. apply AG. apply in_or_app; right. apply in_or_app; left. exact J.
  - intros a J. apply AG. apply in_or_app; left. exact J.
Qed.

(** ** Executing *)

Lemma wrg_eq g d v : wrg g d v d = v.
Proof. unfold wrg. rewrite String.eqb_refl. reflexivity. Qed.

(** The execution [x] ends like the model [y] says: with the same fault, or with
    the shadow stack memory and pointer that it says, and with the word that it
    says stored at the address [a]. *)
Definition ends_as (x : outcome sst) (y : outcome ((Z -> Z) * Z * Z)) (Q : Z -> sst -> Prop) : Prop :=
  match y with
  | Next (m, p, own) => exists t, x = Next t /\ v_m t = m /\ v_p t = p /\ Q own t
  | Fault => x = Fault
  | Full => x = Full
  | Odd => x = Odd
  | Invalid => x = Invalid
  end.

(** one step, with the registers it reads evaluated *)
Section STEPS.
Variables (adr : string -> Z) (l : list ctx) (r : list sop) (g : string -> Z) (w m : Z -> Z) (p : Z).
Notation st := (mk_sst g w m p).
Lemma x_mov d a v : g a = v -> exec adr l (SMov d a :: r) st = exec adr l r (mk_sst (wrg g d v) w m p).
Proof. intros <-. reflexivity. Qed.
Lemma x_imm d n : exec adr l (SImm d n :: r) st = exec adr l r (mk_sst (wrg g d n) w m p).
Proof. reflexivity. Qed.
Lemma x_adr d n : exec adr l (SAdr d n :: r) st = exec adr l r (mk_sst (wrg g d (adr n)) w m p).
Proof. reflexivity. Qed.
Lemma x_lea d b n v : g b = v -> exec adr l (SLea d b n :: r) st = exec adr l r (mk_sst (wrg g d (v + n)) w m p).
Proof. intros <-. reflexivity. Qed.
Lemma x_and d n v : g d = v -> exec adr l (SAnd d n :: r) st = exec adr l r (mk_sst (wrg g d (Z.land v n)) w m p).
Proof. intros <-. reflexivity. Qed.
Lemma x_shl d n v : g d = v -> exec adr l (SShl d n :: r) st = exec adr l r (mk_sst (wrg g d (Z.shiftl v n)) w m p).
Proof. intros <-. reflexivity. Qed.
Lemma x_or d a v u : g d = v -> g a = u -> exec adr l (SOr d a :: r) st = exec adr l r (mk_sst (wrg g d (Z.lor v u)) w m p).
Proof. intros <- <-. reflexivity. Qed.
Lemma x_ld d b n v : g b = v -> exec adr l (SLd d b n :: r) st = exec adr l r (mk_sst (wrg g d (w (v + n))) w m p).
Proof. intros <-. reflexivity. Qed.
Lemma x_st a b n u v : g a = u -> g b = v -> exec adr l (SSt a b n :: r) st = exec adr l r (mk_sst g (wr w (v + n) u) m p).
Proof. intros <- <-. reflexivity. Qed.
Lemma x_rdssp d : exec adr l (SRdssp d :: r) st = exec adr l r (mk_sst (wrg g d p) w m p).
Proof. reflexivity. Qed.
Lemma x_pop b n u v : g b = u -> g "rsp" = v ->
  exec adr l (SPop b n :: r) st = exec adr l r (mk_sst (wrg g "rsp" (v + 8)) (wr w (u + n) (w v)) m p).
Proof. intros <- <-. reflexivity. Qed.
Lemma x_rstor b n v : g b = v ->
  exec adr l (SRstor b n :: r) st = do y <- i_rstorssp m l p (v + n); exec adr l r (mk_sst g w (fst y) (snd y)).
Proof. intros <-. reflexivity. Qed.
Lemma x_save : exec adr l (SSave :: r) st = do y <- i_saveprevssp m l p; exec adr l r (mk_sst g w (fst y) (snd y)).
Proof. reflexivity. Qed.
Lemma x_inc a v : g a = v -> exec adr l (SInc a :: r) st = do y <- i_incssp m l p v; exec adr l r (mk_sst g w m y).
Proof. intros <-. reflexivity. Qed.
Lemma x_call a v : g "rsp" = v ->
  exec adr l (SCall a :: r) st =
  do y <- i_call m l p (adr a); exec adr l r (mk_sst (wrg g "rsp" (v - 8)) (wr w (v - 8) (adr a)) (fst y) (snd y)).
Proof. intros <-. reflexivity. Qed.
Lemma x_jmp a : exec adr l (SJmp a :: r) st = Next st.
Proof. reflexivity. Qed.
Lemma x_ret : exec adr l (SRet :: r) st = Next st.
Proof. reflexivity. Qed.
End STEPS.
Local Opaque exec.

Ltac rd := cbv [wrg String.eqb Ascii.eqb Bool.eqb]; reflexivity.
Ltac go1 := match goal with |- context [exec _ _ (?x :: _) _] =>
  match x with
  | SImm _ _ => rewrite x_imm | SAdr _ _ => rewrite x_adr | SRdssp _ => rewrite x_rdssp | SSave => rewrite x_save
  | SJmp _ => rewrite x_jmp | SRet => rewrite x_ret
  | SMov _ _ => erewrite x_mov by rd | SLea _ _ _ => erewrite x_lea by rd | SAnd _ _ => erewrite x_and by rd
  | SShl _ _ => erewrite x_shl by rd | SOr _ _ => erewrite x_or by rd | SLd _ _ _ => erewrite x_ld by rd
  | SSt _ _ _ => erewrite x_st by rd | SPop _ _ => erewrite x_pop by rd | SRstor _ _ => erewrite x_rstor by rd
  | SInc _ => erewrite x_inc by rd | SCall _ => erewrite x_call by rd
  end end.
Lemma bind_next {A B} (a : A) (f : A -> outcome B) : bind (Next a) f = f a.
Proof. reflexivity. Qed.
Ltac go := rewrite ?bind_next; cbn [fst snd]; repeat go1.
Ltac rds := cbv [wrg String.eqb Ascii.eqb Bool.eqb].
Ltac mem := unfold wr; repeat match goal with |- context [?a =? ?b] =>
              first [replace (a =? b) with true by (symmetry; apply Z.eqb_eq; lia)
                    |replace (a =? b) with false by (symmetry; apply Z.eqb_neq; lia)] end.

Lemma jump_exec adr l ts gd ilp s :
  ~ (v_r s "rsp" - 0x48 <= v_r s "rdi" < v_r s "rsp") ->
  ends_as (exec adr l (jump_ops ts gd ilp) s) (jump_ss (v_m s) l (v_p s) (v_w s (v_r s "rdi")))
    (fun own t => v_w t (v_r s "rsp" - 0x48) = own /\ (ilp = false -> v_r t "rdi" = v_r s "rsp" - 0x48)).
Proof.
  intros AP. destruct s as [g w m p]. cbn [v_r v_w v_m v_p] in *. unfold jump_ss.
  destruct ts, gd, ilp; unfold jump_ops, save_ops, load_ops; cbn [when negb app]; go;
  match goal with |- context [i_rstorssp m l p (?X + -8)] =>
    replace (X + -8) with (w (g "rdi") - 8) by (mem; rewrite Z.add_0_r; lia) end;
  (destruct (i_rstorssp m l p (w (g "rdi") - 8)) as [[m1 p1]| | | |]; go; try reflexivity);
  (destruct (i_saveprevssp m1 l p1) as [[m2 p2]| | | |]; go; try reflexivity);
  (destruct (i_incssp m2 l p2 1) as [p3| | | |]; go; try reflexivity);
  (unfold ends_as; eexists; split; [reflexivity|]; cbn [v_r v_w v_m v_p];
   split; [reflexivity|]; split; [reflexivity|]; split; [mem; reflexivity|]);
  intros E; try discriminate E; rds; lia.
Qed.

Lemma ontop_exec adr l ts gd ilp s :
  ~ (v_r s "rsp" - 0x48 <= v_r s "rdi" < v_r s "rsp") ->
  ends_as (exec adr l (ontop_ops ts gd ilp) s) (ontop_ss (v_m s) l (v_p s) (v_w s (v_r s "rdi")))
    (fun own t => v_w t (v_r s "rsp" - 0x48) = own /\ (ilp = false -> v_r t "rdi" = v_r s "rsp" - 0x48)).
Proof.
  intros AP. destruct s as [g w m p]. cbn [v_r v_w v_m v_p] in *. unfold ontop_ss.
  destruct ts, gd, ilp; unfold ontop_ops, save_ops, load_ops; cbn [when negb app]; go;
  match goal with |- context [i_rstorssp m l p (?X + -8)] =>
    replace (X + -8) with (w (g "rdi") - 8) by (mem; rewrite Z.add_0_r; lia) end;
  (destruct (i_rstorssp m l p (w (g "rdi") - 8)) as [[m1 p1]| | | |]; go; try reflexivity);
  (destruct (i_saveprevssp m1 l p1) as [[m2 p2]| | | |]; go; try reflexivity);
  (unfold ends_as; eexists; split; [reflexivity|]; cbn [v_r v_w v_m v_p];
   split; [reflexivity|]; split; [reflexivity|]; split; [mem; reflexivity|]);
  intros E; try discriminate E; rds; lia.
Qed.

Lemma make_exec adr l gd s lb : l_jmp_tramp lb = adr "jmp trampoline" ->
  ends_as (exec adr l (make_ops gd) s) (make_ss lb (v_m s) l (v_p s) (v_w s (v_r s "rdi" - 8)))
    (fun own t => v_w t (v_r t "rax") = own).
Proof.
  intros EL. destruct s as [g w m p]. cbn [v_r v_w v_m v_p] in *. unfold make_ss. rewrite EL.
  destruct gd; unfold make_ops, tramp_ops; cbn [when negb app]; go;
  change (w (g "rdi" + -8) + -8) with (w (g "rdi" - 8) - 8);
  (destruct (i_rstorssp m l p (w (g "rdi" - 8) - 8)) as [[m1 p1]| | | |]; go; try reflexivity);
  (destruct (i_saveprevssp m1 l p1) as [[m2 p2]| | | |]; go; try reflexivity);
  (destruct (i_call m2 l p2 (adr "jmp trampoline")) as [[m3 p3]| | | |]; go; try reflexivity);
  change (p + -8) with (p - 8);
  (destruct (i_rstorssp m3 l p3 (p - 8)) as [[m4 p4]| | | |]; go; try reflexivity);
  (destruct (i_saveprevssp m4 l p4) as [[m5 p5]| | | |]; go; try reflexivity);
  (unfold ends_as; eexists; split; [reflexivity|]; cbn [v_r v_w v_m v_p];
   split; [reflexivity|]; split; [reflexivity|]; rds; mem; reflexivity).
Qed.

(** ** The theorems *)

(** In every configuration with shadow stacks, jump_fcontext as it is in the file
    does on shadow stacks what Cet.v's [jump_ss] says - the model that C48 is
    about - where the word it takes from the target's context is the first of
    those at the given handle, and its own shadow stack pointer is the first of
    the words at the handle that it passes on. *)
Theorem C58_shadow_jump_text o : holds o shadowed = true ->
  exists ops, s_routine o f_jump "jump_fcontext" = Some ops /\
  forall adr l s, ~ (v_r s "rsp" - 0x48 <= v_r s "rdi" < v_r s "rsp") ->
    ends_as (exec adr l ops s) (jump_ss (v_m s) l (v_p s) (v_w s (v_r s "rdi")))
      (fun own t => v_w t (v_r s "rsp" - 0x48) = own /\ (holds o ilp32 = false -> v_r t "rdi" = v_r s "rsp" - 0x48)).
Proof.
  intros H. destruct (ss_read o H) as (E & _). eexists. split; [exact E|].
  intros adr l s AP. apply jump_exec, AP.
Qed.

Theorem C58_shadow_ontop_text o : holds o shadowed = true ->
  exists ops, s_routine o f_ontop "ontop_fcontext" = Some ops /\
  forall adr l s, ~ (v_r s "rsp" - 0x48 <= v_r s "rdi" < v_r s "rsp") ->
    ends_as (exec adr l ops s) (ontop_ss (v_m s) l (v_p s) (v_w s (v_r s "rdi")))
      (fun own t => v_w t (v_r s "rsp" - 0x48) = own /\ (holds o ilp32 = false -> v_r t "rdi" = v_r s "rsp" - 0x48)).
Proof.
  intros H. destruct (ss_read o H) as (_ & E & _). eexists. split; [exact E|].
  intros adr l s AP. apply ontop_exec, AP.
Qed.

(** make_fcontext: the shadow stack is named by the word below the given top of
    the stack; the new shadow stack pointer is the first word of the context *)
Theorem C58_shadow_make_text o : holds o shadowed = true ->
  exists ops, s_routine o f_make "make_fcontext" = Some ops /\
  forall adr l lb s, l_jmp_tramp lb = adr "jmp trampoline" ->
    ends_as (exec adr l ops s) (make_ss lb (v_m s) l (v_p s) (v_w s (v_r s "rdi" - 8)))
      (fun own t => v_w t (v_r t "rax") = own).
Proof.
  intros H. destruct (ss_read o H) as (_ & _ & E & _). eexists. split; [exact E|].
  intros adr l lb s EL. apply make_exec, EL.
Qed.

(** the trampoline pushes the address that context-functions return to on both stacks *)
Theorem C58_shadow_trampoline_text o : holds o shadowed = true ->
  exists ops, s_routine o f_make "trampoline" = Some ops /\
  forall adr l s,
    match i_call (v_m s) l (v_p s) (adr "jmp *%rbp") with
    | Next (m, p) => exists t, exec adr l ops s = Next t /\ v_m t = m /\ v_p t = p /\
                       v_w t (v_r t "rsp") = adr "jmp *%rbp" /\ v_r t "rsp" = v_r s "rsp" - 8
    | Fault => exec adr l ops s = Fault
    | Full => exec adr l ops s = Full
    | Odd => exec adr l ops s = Odd
    | Invalid => exec adr l ops s = Invalid
    end.
Proof.
  intros H. destruct (ss_read o H) as (_ & _ & _ & E). eexists. split; [exact E|].
  intros adr l [g w m p]. unfold tramp_ops. cbn [v_m v_p]. go.
  destruct (i_call m l p (adr "jmp *%rbp")) as [[m1 p1]| | | |]; go; try reflexivity.
  eexists. split; [reflexivity|]. cbn [v_m v_p v_w v_r]. rds.
  repeat split. unfold wr. rewrite Z.eqb_refl. reflexivity.
Qed.

(** gcc -fcf-protection on x86_64: __CET__ is 3 and the system call has a number *)
Example shadowed_occurs :
  holds (config_of (fun x => if String.eqb x "__CET__" then Some 3 else
                             if String.eqb x "SHADOW_STACK_SYSCALL" then Some 453 else None)) shadowed = true.
Proof. reflexivity. Qed.

Print Assumptions C58_shadow_jump_text.
Print Assumptions C58_shadow_ontop_text.
Print Assumptions C58_shadow_make_text.
Print Assumptions C58_shadow_trampoline_text.
