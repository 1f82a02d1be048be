(** Steps of the ucontext machine that do not switch: destruction, release of records, ends of functions. *)
From Coq Require Import List Arith Bool Lia.
From Verif Require Import ListUtil Uctx UctxSpec UctxInv UctxInv2 UctxInv3.
Import ListNotations.

Lemma good0_good n s o : good0 n o -> good n s o.
Proof. destruct o; cbn; auto. tauto. Qed.

(** an event executed on context c *)
Definition here (c : nat) (e : event) : Prop :=
  (forall d, executes e d -> d = c) /\ (forall d, actor e = Some d -> d = c).

Lemma here_calls n s fl ol t c x e :
  Inv n s fl ol -> nth_error (s_rec s) c = Some x -> nth_error (s_thr s) t = Some c -> here c e -> calls n (s_tr s) e.
Proof.
  intros I Hc Ht [H1 H2]. destruct (source_facts _ _ _ _ _ _ _ I Ht Hc) as (A1 & A2 & A3 & _). split.
  - intros d Hd. rewrite (H1 d Hd). exact A3.
  - intros d Hd. rewrite (H2 d Hd). eauto.
Qed.

(** frames of the running context, variables and history change *)
Lemma inv_pf n s s1 s2 t c x x' fl ol fl' ol' new :
  Inv n s fl ol -> nth_error (s_rec s) c = Some x -> nth_error (s_thr s) t = Some c ->
  s_rec s2 = upd (s_rec s) c x' -> s_thr s2 = s_thr s -> s_vars s2 = s_vars s1 -> s_tr s2 = new ++ s_tr s ->
  r_main x' = r_main x -> r_term x' = r_term x -> r_force x' = r_force x -> r_alive x' = r_alive x ->
  r_alloc x' = r_alloc x -> r_caps x' = r_caps x ->
  forallb plain new = true -> (forall e, In e new -> calls n (s_tr s) e) ->
  is_fin (hd_error (r_frames x)) = false -> is_fin (hd_error (r_frames x')) = false ->
  (forall e, wfs_ e (r_frames x') + sumf (wvar e) (s_vars s1) + wh e fl'
           = wfs_ e (r_frames x) + sumf (wvar e) (s_vars s) + wh e fl) ->
  (forall e, wvs_ e (r_frames x') + sumf (wvar e) (s_vars s1) + wh e fl'
          <= wvs_ e (r_frames x) + sumf (wvar e) (s_vars s) + wh e fl \/ idle s e) ->
  (forall e, wpds e (r_frames x') = wpds e (r_frames x)) ->
  wtks (r_frames x') = wtks (r_frames x) ->
  (forall v, wofs v (r_frames x') + wids v ol' + auto_live (nth_error (s_vars s) v)
           = wofs v (r_frames x) + wids v ol + auto_live (nth_error (s_vars s1) v)) ->
  (forall f, In f (r_frames x') -> In f (r_frames x) \/ frame_ok s c f) ->
  (In FRun (r_frames x') -> In FRun (r_frames x)) ->
  wfs (r_main x) (r_frames x') -> top_ok active (r_frames x') ->
  Inv n s2 fl' ol'.
Proof.
  intros I Hc Ht R1 R2 R3 R4 E1 E2 E3 E4 E5 E6 Hp Hcalls F F' Hcnt Hcv Hpd Htk Hown Hfr Hrun Hwf Htop.
  destruct (inv_running _ _ _ _ _ _ _ I Ht Hc) as (Hal & Htf & Hwfx & Htopx & Hrc).
  eapply (inv_local n s s2 t c x x' fl ol fl' ol' I Hc Ht R1 R2 E1 E2 E3 E4 E5 E6); rewrite ?R3, ?R4; auto.
  - apply te_plain; auto. + exact (i_hd _ _ _ _ I). + exact (i_tr _ _ _ _ I).
  - intros e _. apply done_plain. exact Hp.
  - rewrite done_plain by exact Hp. rewrite (i_done _ _ _ _ I c x Hc), Htf, F, F'. intuition discriminate.
  - intros e. rewrite Hcnt. lia.
  - intros p E. rewrite E in F'. discriminate.
  - unfold shape. rewrite E1, E2, E4, E5, Hal, Htf. split; [|auto]. exact (proj1 (i_shape _ _ _ _ I c x Hc)).
Qed.

(** the same in terms of put_frames *)
Lemma inv_pf0 n s s1 t c x fs fl ol fl' ol' new :
  Inv n s fl ol -> nth_error (s_rec s) c = Some x -> nth_error (s_thr s) t = Some c ->
  s_rec s1 = s_rec s -> s_thr s1 = s_thr s -> s_tr s1 = new ++ s_tr s ->
  forallb plain new = true -> (forall e, In e new -> calls n (s_tr s) e) ->
  is_fin (hd_error (r_frames x)) = false -> is_fin (hd_error fs) = false ->
  (forall e, wfs_ e fs + sumf (wvar e) (s_vars s1) + wh e fl'
           = wfs_ e (r_frames x) + sumf (wvar e) (s_vars s) + wh e fl) ->
  (forall e, wvs_ e fs + sumf (wvar e) (s_vars s1) + wh e fl'
          <= wvs_ e (r_frames x) + sumf (wvar e) (s_vars s) + wh e fl \/ idle s e) ->
  (forall e, wpds e fs = wpds e (r_frames x)) ->
  wtks fs = wtks (r_frames x) ->
  (forall v, wofs v fs + wids v ol' + auto_live (nth_error (s_vars s) v)
           = wofs v (r_frames x) + wids v ol + auto_live (nth_error (s_vars s1) v)) ->
  (forall f, In f fs -> In f (r_frames x) \/ frame_ok s c f) ->
  (In FRun fs -> In FRun (r_frames x)) ->
  wfs (r_main x) fs -> top_ok active fs ->
  Inv n (put_frames s1 c fs) fl' ol'.
Proof.
  intros I Hc Ht R1 R2 R4 Hp Hcalls F F' Hcnt Hcv Hpd Htk Hown Hfr Hrun Hwf Htop.
  assert (Hc1 : nth_error (s_rec s1) c = Some x) by (rewrite R1; exact Hc).
  eapply (inv_pf n s s1 (put_frames s1 c fs) t c x (set_frames x fs) fl ol fl' ol' new I Hc Ht); auto.
  - rewrite (put_frames_rec _ _ _ x Hc1), R1. reflexivity.
  - rewrite put_frames_thr. exact R2.
  - rewrite put_frames_vars. reflexivity.
  - rewrite put_frames_tr. exact R4.
Qed.

Lemma put_frames_same s c x : nth_error (s_rec s) c = Some x -> put_frames s c (r_frames x) = s.
Proof.
  intros H. rewrite (put_frames_eq _ _ _ _ H). replace (set_frames x (r_frames x)) with x by (destruct x; reflexivity).
  rewrite upd_same by exact H. destruct s; reflexivity.
Qed.

(** only variables and history change *)
Lemma inv_vars n s s1 t c x fl ol fl' ol' new :
  Inv n s fl ol -> nth_error (s_rec s) c = Some x -> nth_error (s_thr s) t = Some c ->
  s_rec s1 = s_rec s -> s_thr s1 = s_thr s -> s_tr s1 = new ++ s_tr s ->
  forallb plain new = true -> (forall e, In e new -> calls n (s_tr s) e) ->
  is_fin (hd_error (r_frames x)) = false ->
  (forall e, sumf (wvar e) (s_vars s1) + wh e fl' = sumf (wvar e) (s_vars s) + wh e fl) ->
  (forall v, wids v ol' + auto_live (nth_error (s_vars s) v) = wids v ol + auto_live (nth_error (s_vars s1) v)) ->
  Inv n s1 fl' ol'.
Proof.
  intros I Hc Ht R1 R2 R4 Hp Hcalls F H1 H2.
  destruct (inv_running _ _ _ _ _ _ _ I Ht Hc) as (Hal & Htf & Hwfx & Htopx & Hrc).
  assert (Hc1 : nth_error (s_rec s1) c = Some x) by (rewrite R1; exact Hc).
  rewrite <- (put_frames_same s1 c x Hc1).
  eapply (inv_pf0 n s s1 t c x (r_frames x) fl ol fl' ol' new I Hc Ht); auto.
  - intros e. specialize (H1 e). lia.
  - intros e. specialize (H1 e). left. lia.
  - intros v. specialize (H2 v). lia.
Qed.

Lemma wvar_upd l v x0 x e : nth_error l v = Some x0 ->
  sumf (wvar e) (upd l v x) + wvar e x0 = sumf (wvar e) l + wvar e x.
Proof. apply sumf_upd. Qed.
Lemma auto_live_upd l v b h h' v' : nth_error l v = Some (VLive b h) ->
  auto_live (nth_error (upd l v (VLive b h')) v') = auto_live (nth_error l v').
Proof.
  intros H. rewrite nth_upd. destruct (Nat.eqb_spec v v') as [<-|E]; [|reflexivity].
  pose proof (nth_some_lt _ _ _ H) as Hl. apply Nat.ltb_lt in Hl. rewrite Hl, H. reflexivity.
Qed.
Lemma auto_live_dead l v b h v' : nth_error l v = Some (VLive b h) ->
  auto_live (nth_error (upd l v VDead) v') + (if b then 0 else b2n (Nat.eqb v v')) = auto_live (nth_error l v').
Proof.
  intros H. rewrite nth_upd. destruct (Nat.eqb_spec v v') as [<-|E].
  - pose proof (nth_some_lt _ _ _ H) as Hl. apply Nat.ltb_lt in Hl. rewrite Hl, H. destruct b; reflexivity.
  - destruct b; cbn; lia.
Qed.

(* ------------------------------------------------------------------ destruction *)

Lemma drop_put s t c x fs h : nth_error (s_rec s) c = Some x ->
  drop (put_frames s c fs) t c fs h = drop s t c fs h.
Proof.
  intros Hc. destruct h as [d|]; cbn [drop].
  2:{ rewrite !(put_frames_eq _ _ _ _ Hc). erewrite put_frames_eq by (cbn; eapply nth_upd_eq; eauto).
      cbn. rewrite upd_upd. reflexivity. }
  assert (P : forall fs', put_frames (put_frames s c fs) c fs' = put_frames s c fs').
  { intros fs'. rewrite !(put_frames_eq _ _ _ _ Hc). erewrite put_frames_eq by (cbn; eapply nth_upd_eq; eauto).
    cbn. rewrite upd_upd. reflexivity. }
  rewrite !P, put_frames_tr. rewrite (put_frames_rec _ _ _ _ Hc), nth_upd.
  destruct (Nat.eqb_spec c d) as [<-|E]; [|reflexivity].
  pose proof (nth_some_lt _ _ _ Hc) as Hl. apply Nat.ltb_lt in Hl. rewrite Hl, Hc. reflexivity.
Qed.

Lemma drop_good n s t c x h :
  Inv n s h [] -> nth_error (s_rec s) c = Some x -> nth_error (s_thr s) t = Some c -> dtor_ok (r_frames x) ->
  good0 n (drop s t c (r_frames x) h).
Proof.
  intros I Hc Ht Hdt. destruct h as [d|]; cbn [drop].
  2:{ rewrite (put_frames_same _ _ _ Hc). cbn. intros _. exact I. }
  assert (Hpos : 0 < cnt d s + wh d (Some d)) by (rewrite wh_self; lia).
  destruct (target_facts _ _ _ _ _ I Hpos) as (y & Hd & Hya & Hyr & Hyf & Hyt & Hydone & Hywf).
  rewrite Hd, Hya. destruct (r_main y) eqn:Hm.
  - rewrite (put_frames_same _ _ _ Hc). cbn [good0]. intros _.
    assert (Hism : is_main s d = true) by (unfold is_main; rewrite Hd; exact Hm).
    destruct I as [I1 I2 I3 I4 I5 I6 I7 I8 I9 I10 I11 I12 I13 I14 I15 I16 I17 I18 I19].
    constructor; auto.
    + intros e. destruct (I1 e) as [A B]. split; [cbn [wh]; lia|]. intros H. specialize (B H). cbn [wh] in *.
      destruct (Nat.eqb_spec d e) as [->|E]; [congruence|]. cbn in B. lia.
    + intros e. cbn [wh]. intros He. apply I2. lia.
  - destruct (inv_running _ _ _ _ _ _ _ I Ht Hc) as (Hal & Htf & Hwfx & Htopx & Hrc).
    destruct (r_term y) eqn:Hty.
    + cbn [good0]. intros _.
      eapply (inv_pf0 n s s t c x _ (Some d) [] None [] [] I Hc Ht); try reflexivity; auto.
      * intros e []. * apply dtor_ok_fin; exact Hdt.
      * intros e. unfold wfs_. cbn [sumf wfr wh]. lia.
      * intros e. left. unfold wvs_. cbn [sumf wvr wh]. lia.
      * intros f [<-|H]; [right|auto]. cbn. unfold term, is_main. rewrite Hd. auto.
      * intros [H|H]; [discriminate|exact H].
      * destruct (r_frames x) as [|f r]; [destruct Hdt|]. rewrite wfs_cons. split; [exact Hdt|exact Hwfx].
    + rewrite (put_frames_eq _ _ _ _ Hc). apply unwind_good; auto.
      * unfold is_main; rewrite Hd; exact Hm.
      * unfold term; rewrite Hd; exact Hty.
Qed.

Definition objl (o : obj) : list nat := match o with OFib v => [v] | OUsr _ => [] end.

Lemma destroy_good n s t c x p o ol :
  Inv n s None ol -> nth_error (s_rec s) c = Some x -> nth_error (s_thr s) t = Some c -> dtor_ok (r_frames x) ->
  (forall d, p = OnCtx d -> ~ freed (s_tr s) d) ->
  (ol = objl o \/ ol = [] /\ exists v h, o = OFib v /\ nth_error (s_vars s) v = Some (VLive true h)) ->
  good0 n (destroy s t c (r_frames x) p o).
Proof.
  intros I Hc Ht Hdt Hp Ho.
  destruct (inv_running _ _ _ _ _ _ _ I Ht Hc) as (Hal & Htf & Hwfx & Htopx & Hrc).
  assert (Hcalls : forall e, In e [EvDtor p o] -> calls n (s_tr s) e).
  { intros e [<-|[]]. split; [|discriminate]. intros d. cbn. destruct p as [d'|]; [|tauto]. intros <-. apply Hp. reflexivity. }
  destruct o as [v|u]; cbn [destroy].
  - assert (Hv : exists b h, nth_error (s_vars s) v = Some (VLive b h) /\ forall v', wids v' ol = if b then 0 else b2n (Nat.eqb v v')).
    { destruct Ho as [->|(-> & v0 & h & E & Hv)].
      - pose proof (i_own _ _ _ _ I v) as A. unfold wids in A. cbn [objl sumf] in A. rewrite Nat.eqb_refl in A. cbn in A.
        destruct (nth_error (s_vars s) v) as [[|[|] h]|]; cbn in A; try lia. exists false, h. split; [reflexivity|].
        intros v'. unfold wids. cbn [objl sumf]. lia.
      - injection E as <-. exists true, h. split; [exact Hv|]. reflexivity. }
    destruct Hv as (b & h & Hv & Hol). rewrite Hv.
    apply drop_good; auto.
    eapply (inv_vars n s _ t c x None ol h [] [EvDtor p (OFib v)] I Hc Ht); try reflexivity; auto.
    + apply dtor_ok_fin; exact Hdt.
    + intros e. cbn [put_var emit s_vars]. pose proof (wvar_upd _ v _ VDead e Hv) as E. cbn [wvar wh] in *. lia.
    + intros v'. rewrite Hol. cbn [put_var emit s_vars]. pose proof (auto_live_dead _ v b h v' Hv) as E. unfold wids. cbn [sumf]. lia.
  - cbn [good0]. intros _.
    assert (Hol : ol = []) by (destruct Ho as [->|(-> & _)]; reflexivity). subst ol.
    eapply (inv_pf0 n s _ t c x _ None [] None [] [EvDtor p (OUsr u)] I Hc Ht); try reflexivity; auto.
    + apply dtor_ok_fin; exact Hdt.
    + intros f [<-|H]; [right; cbn; auto|auto].
    + intros [H|H]; [discriminate|exact H].
    + destruct (r_frames x) as [|f r]; [destruct Hdt|]. rewrite wfs_cons. split; [|exact Hwfx]. cbn. auto.
Qed.

(* ------------------------------------------------------------------ release of a record *)

(** taking a captured object out of a record that does not run *)
Lemma inv_caps n s d y o l fl ol :
  Inv n s fl ol -> nth_error (s_rec s) d = Some y -> r_alive y = true -> r_caps y = o :: l ->
  Inv n (put_rec s d (set_caps y l)) fl (objl o ++ ol).
Proof.
  intros I Hd Hal Ho. set (y' := set_caps y l).
  pose proof (nth_some_lt _ _ _ Hd) as Hlt.
  set (s' := put_rec s d y').
  assert (Hnth : forall e, nth_error (s_rec s') e = if Nat.eqb d e then Some y' else nth_error (s_rec s) e).
  { intros e. unfold s'. cbn [put_rec s_rec]. rewrite nth_upd. destruct (Nat.eqb_spec d e) as [<-|E]; [|reflexivity].
    apply Nat.ltb_lt in Hlt. now rewrite Hlt. }
  assert (Hsum : forall f : rcd -> nat, f y' = f y -> sumf f (s_rec s') = sumf f (s_rec s)).
  { intros f E. unfold s'. cbn [put_rec s_rec]. pose proof (sumf_upd f _ d y' y Hd). lia. }
  assert (Hcase : forall e z, nth_error (s_rec s') e = Some z -> exists z0, nth_error (s_rec s) e = Some z0 /\
     r_frames z = r_frames z0 /\ r_main z = r_main z0 /\ r_term z = r_term z0 /\ r_force z = r_force z0 /\
     r_alive z = r_alive z0 /\ r_alloc z = r_alloc z0 /\ (r_alive z0 = false -> z = z0)).
  { intros e z. rewrite Hnth. destruct (Nat.eqb_spec d e) as [<-|E].
    - intros E; injection E as <-. exists y. repeat split; auto. congruence.
    - intros H. exists z. repeat split; auto. }
  assert (Hproj : forall {B} (f : rcd -> B) b e, f y' = f y ->
     match nth_error (s_rec s') e with Some x => f x | None => b end = match nth_error (s_rec s) e with Some x => f x | None => b end).
  { intros B f b e E. rewrite Hnth. destruct (Nat.eqb_spec d e) as [<-|]; [now rewrite Hd|reflexivity]. }
  assert (Hcnt : forall e, cnt e s' = cnt e s) by (intros e; unfold cnt; now rewrite (Hsum (wrec e))).
  assert (Hcv : forall e, cv e s' = cv e s) by (intros e; unfold cv; now rewrite (Hsum (wvrec e))).
  assert (Hpd : forall e, pend e s' = pend e s) by (intros e; unfold pend; now rewrite (Hsum (wprec e))).
  assert (Htop : forall e, top s' e = top s e) by (intros e; apply (Hproj _ (fun x => hd_error (r_frames x))); reflexivity).
  assert (Hmain : forall e, is_main s' e = is_main s e) by (intros e; apply (Hproj _ r_main); reflexivity).
  assert (Hterm : forall e, term s' e = term s e) by (intros e; apply (Hproj _ r_term); reflexivity).
  assert (Haliv : forall e, alive s' e = alive s e) by (intros e; apply (Hproj _ r_alive); reflexivity).
  assert (Hrest : forall e, rest_ s' e = rest_ s e).
  { intros e. unfold rest_. change (s_thr s') with (s_thr s).
    apply (Hproj _ (fun x => b2n (r_alive x && negb (existsb (Nat.eqb e) (s_thr s))))). reflexivity. }
  destruct I as [I1 I2 I3 I4 I5 I6 I7 I8 I9 I10 I11 I12 I13 I14 I15 I16 I17 I18 I19].
  constructor; change (s_thr s') with (s_thr s); change (s_vars s') with (s_vars s); change (s_tr s') with (s_tr s); auto.
  - intros e. rewrite Hcnt, Hrest, Hmain. apply I1.
  - intros e. rewrite Hcv. unfold idle. rewrite !Htop. apply I2.
  - intros c x f Hx Hf. destruct (Hcase c x Hx) as (x0 & H0 & F & _). rewrite F in Hf.
    eapply frame_ok_ext; [| | | |exact (I3 c x0 f H0 Hf)]; auto. apply incl_refl.
  - intros c x Hx. rewrite Hpd. destruct (Hcase c x Hx) as (x0 & H0 & F & _ & T & _). rewrite F, T. apply (I4 c x0 H0).
  - intros v. unfold own. specialize (I5 v). unfold own in I5.
    pose proof (sumf_upd (worec v) _ d y' y Hd) as E. change (s_rec s') with (upd (s_rec s) d y').
    unfold worec in E at 2 4. unfold y' in E at 2 3. cbn [set_caps r_frames r_caps] in E. rewrite Ho in E.
    unfold wobs in E. cbn [sumf] in E. unfold wids. rewrite sumf_app.
    assert (E2 : sumf (fun v' => b2n (v' =? v)) (objl o) = wob v o) by (destruct o; cbn; lia).
    unfold wids in I5. rewrite E2. lia.
  - intros t c H. rewrite Haliv. eauto.
  - intros c x Hx. change (runs s' c) with (runs s c). destruct (Hcase c x Hx) as (x0 & H0 & F & M & T & _ & A & L & K).
    pose proof (I9 c x0 H0) as S9. unfold shape in *. rewrite F, M, T, A, L.
    destruct (r_alive x0) eqn:Ea; [exact S9|]. rewrite (K eq_refl). exact S9.
  - intros c x Hx Hu Ht. destruct (Hcase c x Hx) as (x0 & H0 & F & _ & T & _). rewrite F. rewrite T in Ht. exact (I10 c x0 H0 Hu Ht).
  - intros c x Hx. rewrite Hpd. destruct (Hcase c x Hx) as (x0 & H0 & F & _ & T & R & _). rewrite R. exact (I11 c x0 H0).
  - intros c x Hx. destruct (Hcase c x Hx) as (x0 & H0 & F & _ & T & R & _). rewrite F, T. exact (I12 c x0 H0).
  - intros c x Hx. destruct (Hcase c x Hx) as (x0 & H0 & F & M & T & R & _). rewrite F, M. exact (I13 c x0 H0).
  - intros c x Hx. destruct (Hcase c x Hx) as (x0 & H0 & F & M & T & R & A & _). rewrite A. exact (I14 c x0 H0).
  - intros c x a Hx. destruct (Hcase c x Hx) as (x0 & H0 & F & M & T & R & A & L & _). rewrite L. exact (I15 c x0 a H0).
  - intros c H. unfold s' in H. cbn [put_rec s_rec] in H. rewrite upd_length in H. exact (I16 c H).
  - intros c x p Hx. destruct (Hcase c x Hx) as (x0 & H0 & F & _). rewrite F. exact (I19 c x0 p H0).
Qed.

(** deallocate( sctx) of record d by context c *)
Lemma inv_free n s t c x d y a :
  Inv n s (Some d) [] -> nth_error (s_rec s) c = Some x -> nth_error (s_thr s) t = Some c ->
  nth_error (s_rec s) d = Some y -> r_caps y = [] -> r_alloc y = Some a ->
  r_main y = false -> (r_term y = true \/ In (EvFail d) (s_tr s) /\ r_frames y = [FStart]) ->
  Inv n (emit (put_rec s d (set_dead y)) (EvFree d a c)) None [].
Proof.
  intros I Hc Ht Hd Hcaps Halloc Hmain Hterm.
  assert (Hpos : 0 < cnt d s + wh d (Some d)) by (rewrite wh_self; lia).
  destruct (target_facts _ _ _ _ _ I Hpos) as (y0 & Hd' & Hya & Hyr & Hyf & Hyt & Hydone & Hywf).
  rewrite Hd in Hd'. injection Hd' as <-.
  pose proof (sw_ne n s t c d x _ I Hc Ht Hpos) as Hne.
  destruct (source_facts _ _ _ _ _ _ _ I Ht Hc) as (A1 & A2 & A3 & A4).
  assert (Hfr : r_frames y = [FRes; FRunEnd] \/ r_frames y = [FStart]).
  { pose proof (i_shape _ _ _ _ I d y Hd) as S9. unfold shape in S9. rewrite Hya in S9.
    destruct Hterm as [T|[_ F]]; [|auto]. rewrite T in S9. left. apply S9. }
  assert (Hz : (forall e, wrec e y = 0) /\ (forall e, wvrec e y = 0) /\ (forall e, wprec e y = 0) /\ (forall v, worec v y = 0)).
  { unfold wrec, wvrec, wprec, worec, wfs_, wvs_, wpds, wofs, wobs. rewrite Hcaps. destruct Hfr as [-> | ->]; cbn; auto. }
  destruct Hz as (Z1 & Z2 & Z3 & Z4).
  set (y' := set_dead y). set (s' := emit (put_rec s d y') (EvFree d a c)).
  pose proof (nth_some_lt _ _ _ Hd) as Hlt.
  assert (Hnth : forall e, nth_error (s_rec s') e = if Nat.eqb d e then Some y' else nth_error (s_rec s) e).
  { intros e. unfold s'. cbn [emit put_rec s_rec]. rewrite nth_upd. destruct (Nat.eqb_spec d e) as [<-|E]; [|reflexivity].
    apply Nat.ltb_lt in Hlt. now rewrite Hlt. }
  assert (Hsum : forall f : rcd -> nat, f y' = 0 -> f y = 0 -> sumf f (s_rec s') = sumf f (s_rec s)).
  { intros f E E'. unfold s'. cbn [emit put_rec s_rec]. pose proof (sumf_upd f _ d y' y Hd). lia. }
  assert (Hcnt : forall e, cnt e s' = cnt e s) by (intros e; unfold cnt; now rewrite (Hsum (wrec e))).
  assert (Hcv : forall e, cv e s' = cv e s) by (intros e; unfold cv; now rewrite (Hsum (wvrec e))).
  assert (Hpd : forall e, pend e s' = pend e s) by (intros e; unfold pend; now rewrite (Hsum (wprec e))).
  assert (Hno : forall e, e <> d -> nth_error (s_rec s') e = nth_error (s_rec s) e).
  { intros e E. rewrite Hnth. destruct (Nat.eqb_spec d e); [congruence|reflexivity]. }
  assert (Hmain' : forall e, is_main s' e = is_main s e).
  { intros e. unfold is_main. rewrite Hnth. destruct (Nat.eqb_spec d e) as [<-|]; [now rewrite Hd|reflexivity]. }
  assert (Htr : s_tr s' = EvFree d a c :: s_tr s) by reflexivity.
  assert (Hd1 : cnt d s = 0).
  { destruct (i_cnt _ _ _ _ I d) as [B _]. rewrite wh_self in B. pose proof (rest_le s d). lia. }
  assert (Hfree : forall e, freed (s_tr s') e <-> e = d \/ freed (s_tr s) e).
  { intros e. rewrite Htr, freed_cons. split.
    - intros [(a0 & o & E)|H]; [injection E as -> _ _|]; auto.
    - intros [-> |H]; eauto. }
  assert (Hent : forall e, entered (s_tr s') e <-> entered (s_tr s) e).
  { intros e. rewrite Htr, entered_cons. split; [intros [[r E]|H]; [discriminate|exact H]|auto]. }
  assert (Hdn : forall e, done (s_tr s') e <-> done (s_tr s) e).
  { intros e. rewrite Htr, done_cons. split; [intros [[r E]|H]; [discriminate|exact H]|auto]. }
  assert (Hun : forall e, unwound (s_tr s') e <-> unwound (s_tr s) e).
  { intros e. rewrite Htr, unwound_cons. split; [intros [[r [f E]]|H]; [discriminate|exact H]|auto]. }
  assert (Hpd0 : pend d s = 0).
  { pose proof (i_tok _ _ _ _ I d y Hd) as A. destruct Hterm as [T|[_ F]].
    - rewrite T in A. exact A.
    - destruct (r_term y); [exact A|]. rewrite F in A. exact A. }
  assert (Hdone : done (s_tr s) d \/ In (EvFail d) (s_tr s)).
  { destruct Hterm as [T|[F _]]; auto. }
  assert (Hfd : forall e z, nth_error (s_rec s) e = Some z -> In (FDt d) (r_frames z) -> False).
  { intros e z H1 H2. pose proof (sumf_le (wprec d) _ _ _ H1) as A. unfold wprec in A at 1.
    apply In_nth_error in H2. destruct H2 as [k H2]. pose proof (sumf_le (wpd d) _ _ _ H2) as B.
    cbn in B. rewrite Nat.eqb_refl in B. unfold wpds in A. cbn in B. unfold pend in Hpd0. lia. }
  pose proof I as I0.
  destruct I as [I1 I2 I3 I4 I5 I6 I7 I8 I9 I10 I11 I12 I13 I14 I15 I16 I17 I18 I19].
  constructor; change (s_thr s') with (s_thr s); change (s_vars s') with (s_vars s).
  - intros e. rewrite Hcnt, Hmain'. cbn [wh]. unfold rest_. rewrite Hnth. change (s_thr s') with (s_thr s).
    destruct (Nat.eqb_spec d e) as [<-|E].
    + cbn. lia.
    + fold (rest_ s e). specialize (I1 e). rewrite wh_ne in I1 by exact E. rewrite Nat.add_0_r in *. exact I1.
  - intros e. rewrite Hcv. cbn [wh]. intros He. assert (e <> d) by (intros ->; pose proof (cv_le d s); lia).
    unfold idle, top. rewrite Hno by auto. apply I2. lia.
  - intros e z f Hz Hf. rewrite Hnth in Hz. destruct (Nat.eqb_spec d e) as [<-|E]; [injection Hz as <-; destruct Hf|].
    eapply frame_ok_ext; [| | | |exact (I3 e z f Hz Hf)].
    + intros b Hb. unfold top. rewrite Hno; [reflexivity|]. intros ->. pose proof (frame_cnt d s e z f Hz Hf). lia.
    + intros _. apply Hpd.
    + intros b Hb. rewrite Hmain'. unfold term, alive. rewrite Hno; [auto|]. intros ->.
      destruct Hb as [Hb|Hb]; [pose proof (frame_cnt d s e z f Hz Hf); lia|]. subst f. exact (Hfd e z Hz Hf).
    + rewrite Htr. intros z' Hz'. right. exact Hz'.
  - intros e z Hz. rewrite Hpd. rewrite Hnth in Hz. destruct (Nat.eqb_spec d e) as [<-|E]; [|exact (I4 e z Hz)].
    injection Hz as <-. cbn. destruct (r_term y); auto.
  - intros v. unfold own. rewrite (Hsum (worec v)) by (reflexivity || apply Z4). exact (I5 v).
  - destruct I6 as [L R]. split; [exact L|]. intros t' c' H. rewrite Htr. cbn. auto.
  - exact I7.
  - intros t' c' H. unfold alive. rewrite Hno; [exact (I8 t' c' H)|]. intros ->.
    rewrite runs_false in Hyr. exact (Hyr t' H).
  - intros e z Hz. change (runs s' e) with (runs s e). rewrite Hnth in Hz. destruct (Nat.eqb_spec d e) as [<-|E]; [|exact (I9 e z Hz)].
    injection Hz as <-. unfold shape, y'. cbn. rewrite Halloc. repeat split; auto. discriminate.
  - intros e z Hz. rewrite Hun. rewrite Hnth in Hz. destruct (Nat.eqb_spec d e) as [<-|E]; [|exact (I10 e z Hz)].
    injection Hz as <-. cbn. split; discriminate.
  - intros e z Hz. rewrite Hun, Hpd. rewrite Hnth in Hz. destruct (Nat.eqb_spec d e) as [<-|E]; [|exact (I11 e z Hz)].
    injection Hz as <-. exact (I11 d y Hd).
  - intros e z Hz. rewrite Hdn. rewrite Hnth in Hz. destruct (Nat.eqb_spec d e) as [<-|E]; [|exact (I12 e z Hz)].
    injection Hz as <-. rewrite (I12 d y Hd). cbn. destruct Hfr as [-> | ->]; cbn; tauto.
  - intros e z Hz. rewrite !Hent. rewrite Hnth in Hz. destruct (Nat.eqb_spec d e) as [<-|E].
    + injection Hz as <-. cbn. split; [discriminate|]. split; [tauto|].
      destruct (I13 d y Hd) as (_ & _ & B). rewrite Hmain in *. destruct Hterm as [T|[F _]]; [|auto].
      pose proof (i_shape _ _ _ _ I0 d y Hd) as S9. unfold shape in S9. rewrite Hya, T in S9. destruct S9 as (_ & F & _).
      rewrite F in B. cbn in B. destruct B as [B|[B|[B|B]]]; auto; discriminate.
    + destruct (I13 e z Hz) as (B1 & B2 & B3). rewrite Htr. split; [exact B1|]. split; [exact B2|]. cbn. tauto.
  - intros e z Hz. rewrite Hfree. rewrite Hnth in Hz. destruct (Nat.eqb_spec d e) as [<-|E].
    + injection Hz as <-. cbn. tauto.
    + rewrite <- (I14 e z Hz). intuition congruence.
  - intros e z b Hz Hb. rewrite Htr. right. rewrite Hnth in Hz. destruct (Nat.eqb_spec d e) as [<-|E]; [|exact (I15 e z b Hz Hb)].
    injection Hz as <-. exact (I15 d y b Hd Hb).
  - intros e He. unfold s' in He. cbn [emit put_rec s_rec] in He. rewrite upd_length in He.
    rewrite Hent, Hdn, Hun, Hfree. destruct (I16 e He) as (B1 & B2 & B3 & B4). repeat split; auto. intros [-> |H]; [lia|contradiction].
  - rewrite Htr. exact Logic.I.
  - rewrite Htr, always_cons. split; [|exact I18]. split; [|split; [|split]].
    + split; [|repeat split; auto].
      * cbn. intros e He <-. contradiction.
      * exact (I15 d y a Hd Halloc).
    + split; [exact Logic.I|]. cbn. intros e E; injection E as <-. eauto.
    + unfold next_rule0. unfold no_switch in I17. destruct (hd_error (s_tr s)) as [[]|]; try exact Logic.I; contradiction.
    + exact Logic.I.
  - intros e z p Hz Hp. rewrite Htr. right. rewrite Hnth in Hz. destruct (Nat.eqb_spec d e) as [<-|E]; [|exact (I19 e z p Hz Hp)].
    injection Hz as <-. discriminate Hp.
Qed.
