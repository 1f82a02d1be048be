(** * A verified checker for the ports of src/asm

    [check] runs the code of a port symbolically and compares the result with
    the calling convention; AsmFacts.v proves what a successful check says about
    every execution. *)
From Coq Require Import ZArith List String Lia Bool.
From Verif Require Import Word AsmMachine AsmSym AsmAbi.
Import ListNotations.
Open Scope Z_scope.

Definition vroot (p : place) : root :=
  match p with PReg r => RReg r | PMem b o n => RCell (RReg b) o n end.

Definition slot := (root * Z * Z)%type.

Section Check.
  Variable A : port.
  Let B := p_abi A.
  Let C := p_code A.
  Let P := ab_cpu B.
  Let F := c_frame C.
  Let up := ab_up B.
  Let wb := cwb P.
  Let K := c_size C.

  Definition own : root := RReg (ab_sp B).
  Definition tgt : root := vroot (ab_to B).
  Definition hidr : root := RCell tgt (c_hid C) wb.

  Definition has_hidden : bool := match ab_hidden B with Some _ => true | None => false end.

  Definition reg_susp : list region :=
    [(own, - F, up); (tgt, 0, F + up)] ++ (if has_hidden then [(hidr, 0, 2 * wb)] else []).
  Definition nz_susp : list sval := if has_hidden then [(hidr, 0)] else [].
  Definition al_susp : list (root * Z) :=
    if ab_align B mod 16 =? 0 then [(own, - ab_bias B); (tgt, - ab_bias B - F)] else [].

  (** the symbolic value of a place *)
  Definition spl (regs : list region) (known : list wentry) (T : sst) (p : place) : option sval :=
    match p with
    | PReg r => Some (get T r)
    | PMem b o n =>
        let v := get T b in
        if (wd P (fst v) <=? wb) && (0 <? n) && in_region regs (fst v) (snd v + o) n
        then slook known (sl T) (fst v) (snd v + o) n else None
    end.

  Definition is (x : option sval) (v : sval) : bool :=
    match x with Some y => sval_eqb y v | None => false end.

  Definition place_ok (p : place) : bool :=
    match p with
    | PReg r => rw P r =? wb
    | PMem b o n => String.eqb b (ab_sp B) && (0 <=? o) && (o + n <=? up) && (n =? wb)
    end.

  Definition chk_abi : bool :=
    (0 <? wb) && (0 <=? F) && (0 <=? ab_wr B) && (ab_wr B <=? up) && (0 <? ab_align B) &&
    (rw P (ab_sp B) =? wb) &&
    place_ok (ab_to B) && place_ok (ab_data B) && place_ok (ab_fn B) && place_ok (ab_ret B) &&
    place_ok (ab_mksp B) && place_ok (ab_mkfn B) &&
    match ab_hidden B with Some p => place_ok p | None => true end &&
    forallb (fun r => 0 <? rw P r) (ab_saved B) &&
    (* c_mkal is a power of two that fits *)
    (0 <? c_mkal C) && (2 ^ Z.log2 (c_mkal C) =? c_mkal C) && (Z.log2 (c_mkal C) <=? 8 * wb) &&
    (c_mkoff C <=? 0) && (0 <=? K) && (0 <=? c_mkscr C) &&
    (0 <=? ab_pop B) && (ab_pop B <=? up) && (0 <=? ab_pop0 B) && (ab_pop0 B <=? up).

  (** *** Slots: where the context data keeps what *)

  Definition slot_of (v : option sval) : list (Z * Z) :=
    match v with
    | Some (RCell b o n, 0) => if root_eqb b tgt then [(o, n)] else []
    | _ => []
    end.

  Definition known_susp : list wentry :=
    match c_spslot C with Some o => [We tgt o wb (tgt, F)] | None => [] end.
  Definition jump_s := srun P reg_susp known_susp nz_susp al_susp (c_jump C) S0.
  Definition ontop_s := srun P reg_susp known_susp nz_susp al_susp (c_ontop C) S0.

  Definition slots : list slot :=
    match jump_s with
    | Some (SJ, FGo pcv) =>
        flat_map (fun r => map (fun on => (RReg r, fst on, snd on)) (slot_of (Some (get SJ r)))) (ab_saved B ++ ab_jmp B)
        ++ map (fun on => (vroot (ab_ret B), fst on, snd on)) (slot_of (Some pcv))
        ++ match ontop_s with
           | Some (SO, FGo _) =>
               map (fun on => (vroot (ab_ret B), fst on, snd on)) (slot_of (spl reg_susp known_susp SO (ab_ret B)))
           | _ => []
           end
        ++ match ab_hidden B with Some p => [(vroot p, c_hid C, wb)] | None => [] end
        ++ match c_spslot C with Some o => [(own, o, wb)] | None => [] end
    | _ => []
    end.

  (** the frame of the caller holds the slots *)
  Definition chk_slots (known : list wentry) (T : sst) : bool :=
    forallb (fun x : slot => let '(r, o, n) := x in
      (0 <? n) && (0 <=? o) && (o + n <=? F + up) &&
      is (slook known (sl T) own (o - F) n) (r, 0)) slots.

  (** [v] is the content of a slot that holds [r] *)
  Definition from_slot (r : root) (v : sval) : bool :=
    existsb (fun x : slot => let '(r', o, n) := x in
      root_eqb r' r && sval_eqb v (RCell tgt o n, 0)) slots.

  Definition writes_in (allowed : list region) (T : sst) : bool :=
    forallb (fun e => in_region allowed (w_root e) (w_off e) (w_len e)) (sl T).

  Definition chk_jump : bool :=
    match jump_s with
    | Some (T, FGo pcv) =>
        chk_slots known_susp T &&
        forallb (fun r => from_slot (RReg r) (get T r)) (ab_saved B ++ ab_jmp B) &&
        from_slot (vroot (ab_ret B)) pcv &&
        sval_eqb (get T (ab_sp B)) (tgt, F + ab_pop B) &&
        match ab_hidden B with
        | None =>
            is (spl reg_susp known_susp T (fst (ab_res B))) (own, - F) &&
            is (spl reg_susp known_susp T (snd (ab_res B))) (vroot (ab_data B), 0)
        | Some p =>
            from_slot (vroot p) (hidr, 0) &&
            is (slook known_susp (sl T) hidr 0 wb) (own, - F) &&
            is (slook known_susp (sl T) hidr wb wb) (vroot (ab_data B), 0) &&
            match ab_hidret B with Some r => sval_eqb (get T r) (hidr, 0) | None => true end
        end &&
        writes_in ((own, - F, ab_wr B) :: if has_hidden then [(hidr, 0, 2 * wb)] else []) T
    | _ => false
    end.

  Definition chk_ontop1 : bool :=
    match ontop_s with
    | Some (T, FGo fnv) =>
        chk_slots known_susp T &&
        forallb (fun r => from_slot (RReg r) (get T r)) (ab_saved B) &&
        match c_tail C with
        | None => sval_eqb fnv (vroot (ab_fn B), 0)
        | Some (l, p) => sval_eqb fnv (RLab l, 0) && is (spl reg_susp known_susp T p) (vroot (ab_fn B), 0)
        end &&
        match spl reg_susp known_susp T (ab_ret B) with
        | Some v => from_slot (vroot (ab_ret B)) v | None => false end &&
        sval_eqb (get T (ab_sp B)) (tgt, F) &&
        is (spl reg_susp known_susp T (fst (ab_ont B))) (own, - F) &&
        is (spl reg_susp known_susp T (snd (ab_ont B))) (vroot (ab_data B), 0) &&
        match ab_hidden B with
        | None => true
        | Some p => from_slot (vroot p) (hidr, 0) && is (spl reg_susp known_susp T p) (hidr, 0)
        end &&
        writes_in ((own, - F, ab_wr B) :: (tgt, 0, F + up) ::
                   if has_hidden then [(hidr, 0, 2 * wb)] else []) T
    | _ => false
    end.

  (** ports without ontop code are checked for jump and make only *)
  Definition chk_ontop : bool := match c_ontop C with [] => true | _ => chk_ontop1 end.

  (** *** make *)

  Definition mroot : root := RAl (vroot (ab_mksp B)) (c_mkoff C) (- c_mkal C).
  Definition reg_make : list region := [(own, - c_mkscr C, up); (mroot, - K, 0)].
  Definition make_s := srun P reg_make [] [] [] (c_make C) S0.

  Definition chk_make : bool :=
    match make_s with
    | Some (T, FGo pcv) =>
        sval_eqb pcv (vroot (ab_ret B), 0) &&
        forallb (fun r => sval_eqb (get T r) (RReg r, 0)) (ab_saved B) &&
        sval_eqb (get T (ab_sp B)) (own, ab_pop0 B) &&
        sval_eqb (get T (ab_mkres B)) (mroot, - K) &&
        writes_in [(own, - c_mkscr C, 0); (mroot, - K, 0)] T
    | _ => false
    end.

  (** values written by make, seen from a later jump to the new context *)
  Definition tr (v : sval) : option sval :=
    if root_eqb (fst v) mroot then Some (tgt, snd v + K)
    else match fst v with
         | RLab l => Some v
         | RCst => Some v
         | r => if snd v =? 0 then Some (RVar r, 0) else None
         end.

  Definition known_fresh : list wentry :=
    match make_s with
    | Some (T, _) =>
        flat_map (fun e =>
          if root_eqb (w_root e) mroot && (0 <? w_len e) &&
             in_region reg_make mroot (w_off e) (w_len e) then
            match slook [] (sl T) mroot (w_off e) (w_len e) with
            | Some v => match tr v with
                        | Some v' => [We tgt (w_off e + K) (w_len e) v']
                        | None => []
                        end
            | None => []
            end
          else []) (sl T)
    | None => []
    end.

  Definition reg_fresh : list region := [(own, - F, up); (tgt, 0, K)].
  Definition al_fresh : list (root * Z) :=
    if (ab_align B mod 16 =? 0) && (c_mkal C mod 16 =? 0)
    then [(own, - ab_bias B); (tgt, - K)] else [].

  Definition fresh1_s := srun P reg_fresh known_fresh [] al_fresh (c_jump C) S0.
  Definition fresh_s : option (sst * sfin) :=
    match fresh1_s with
    | Some (T, FGo v) =>
        match c_tramp C with
        | [] => Some (T, FGo v)
        | c => if sval_eqb v (RLab "trampoline"%string, 0)
               then srun P reg_fresh known_fresh [] al_fresh c T else None
        end
    | _ => None
    end.

  Definition ent_off (T : sst) : Z := snd (get T (ab_sp B)).

  Definition chk_fresh : bool :=
    match fresh_s with
    | Some (T, FGo pcv) =>
        chk_slots known_fresh T &&
        sval_eqb pcv (RVar (vroot (ab_mkfn B)), 0) &&
        is (spl reg_fresh known_fresh T (fst (ab_ent B))) (own, - F) &&
        is (spl reg_fresh known_fresh T (snd (ab_ent B))) (vroot (ab_data B), 0) &&
        is (spl reg_fresh known_fresh T (ab_ret B)) (RLab "finish"%string, 0) &&
        root_eqb (fst (get T (ab_sp B))) tgt && (0 <=? ent_off T) && (ent_off T <=? K) &&
        (c_mkal C mod ab_align B =? 0) && ((ent_off T - K + ab_bias B) mod ab_align B =? 0) &&
        forallb (fun r => sval_eqb (get T r) (RVar (RReg r), 0)) (ab_ctl B) &&
        writes_in [(own, - F, ab_wr B); (tgt, 0, K)] T &&
        (ent_off T + ab_pop0 B + ab_home B <=? K)
    | _ => false
    end.

  Definition check : bool := chk_abi && chk_jump && chk_ontop && chk_make && chk_fresh.

  (** *** finish *)

  Definition fin_space : Z := 64.
  Definition reg_fin : list region := [(own, - fin_space, fin_space)].
  Definition known_fin : list wentry :=
    map (fun x => let '(o, n, l) := x in We own o n (RLab l, 0)) (c_fin C).
  Definition chk_fin : bool :=
    match srun P reg_fin known_fin [] [] (c_finish C) S0 with
    | Some (_, FExit v) => sval_eqb v (RCst, 0)
    | _ => false
    end &&
    match fresh_s with
    | Some (T, FGo _) =>
        forallb (fun x => let '(o, n, l) := x in
          (0 <? n) && (ab_home B <=? o) && (ent_off T + ab_pop0 B + o + n <=? K) &&
          (0 <=? ent_off T + ab_pop0 B + o) &&
          is (slook known_fresh (sl T) tgt (ent_off T + ab_pop0 B + o) n) (RLab l, 0)) (c_fin C)
    | _ => false
    end.
End Check.
