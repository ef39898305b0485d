(** The parallel drivers: the result of an object is a function of that object. *)
From Coq Require Import List Reals ZArith Lra Lia Bool Arith.
From Verif Require Import ListUtil ParModel ParProofs XR GeoModel GeoSpec GeoProofs ShapeModel ShapeSpec.
Import ListNotations.
Open Scope R_scope.

Definition pos (q : vptc) : vec := fst (fst q).
Definition vel (q : vptc) : vec := snd (fst q).

(** What the catalogue should contain for one object. *)
Definition obj_shape (eig : nat -> list xr -> eigres) (fuel : nat) (c : kcfg) (L : R) (vt : variant)
    (obj : list vptc) (r200 : R) (center : vec) : option (pyres (list morph)) :=
  let xyz := cy_respectPBCNoRef (map pos obj) L in
  let ms := map snd obj in
  match vt with
  | Local => calcObjMorphLocal eig fuel c r200 xyz xyz ms center center
  | Global => calcObjMorphGlobal eig fuel c r200 xyz xyz ms center center
  | LocalVel => let v := map (fun _ => v0) obj in
                if com_raises ms then Some ZeroDivision else
                calcObjMorphLocal eig fuel c r200 xyz v ms center (cy_calcCoM (combine v ms))
  | GlobalVel => let v := map vel obj in
                 if com_raises ms then Some ZeroDivision else
                 calcObjMorphGlobal eig fuel c r200 xyz v ms center (cy_calcCoM (combine v ms))
  end.

Lemma supd_same m x v : supd m x v x = v.
Proof. unfold supd. destruct sloc_eq; congruence. Qed.
Lemma supd_other m x v y : y <> x -> supd m x v y = m y.
Proof. unfold supd. destruct sloc_eq; congruence. Qed.
Ltac sup := repeat first [rewrite supd_same | rewrite supd_other by (intro; congruence)].

Lemma runl_app {A B} (l1 l2 : list (act A B)) m : runl A B (l1 ++ l2) m = runl A B l2 (runl A B l1 m).
Proof. apply fold_left_app. Qed.
Lemma runl_cons {A B} a (l : list (act A B)) m : runl A B (a :: l) m = runl A B l (a m).
Proof. reflexivity. Qed.

Section Par.
  Variables (eig : nat -> list xr -> eigres) (fuel : nat) (c : kcfg) (L : R) (vt : variant).
  Variables (objs : list (list vptc)) (r200 : list R) (centers : list vec).
  Notation run := (runl sloc sval).
  Notation body := (shape_body eig fuel c L vt objs r200 centers).

  Lemma fill_run t p n q m : let m' := run (fill vt t p (n, q)) m in
    m' (SXyz t n) = VV (pos q) /\ m' (SM t n) = VR (snd q) /\
    (vt = GlobalVel -> m' (SVel t n) = VV (vel q)) /\
    m' (SMass p) = VR (getr m (SMass p) + snd q) /\
    (forall n', n' <> n -> m' (SXyz t n') = m (SXyz t n') /\ m' (SM t n') = m (SM t n') /\ m' (SVel t n') = m (SVel t n')) /\
    m' (SVc p) = m (SVc p).
  Proof.
    cbv zeta. destruct q as [[x v] mm]. unfold fill, pos, vel. cbn [fst snd].
    destruct vt; cbn [app];
    cbv [runl fold_left getr]; sup;
      (split; [reflexivity|]); (split; [reflexivity|]); (split; [intros; try discriminate; sup; reflexivity|]);
      (split; [reflexivity|]); (split; [|sup; reflexivity]); intros n' Hn; sup; auto.
  Qed.

  Lemma fills_run t p obj : forall n0 m,
    let m' := run (flat_map (fill vt t p) (combine (seq n0 (length obj)) obj)) m in
    (forall i q, nth_error obj i = Some q ->
       m' (SXyz t (n0 + i)) = VV (pos q) /\ m' (SM t (n0 + i)) = VR (snd q) /\
       (vt = GlobalVel -> m' (SVel t (n0 + i)) = VV (vel q))) /\
    (forall n, (n < n0)%nat -> m' (SXyz t n) = m (SXyz t n) /\ m' (SM t n) = m (SM t n) /\ m' (SVel t n) = m (SVel t n)) /\
    (forall r, m (SMass p) = VR r -> m' (SMass p) = VR (r + total snd obj)) /\ m' (SVc p) = m (SVc p).
  Proof.
    induction obj as [|q obj IH]; intros n0 m; cbn [length seq combine flat_map]; cbv zeta.
    - split; [intros i q H; destruct i; discriminate|]. split; [auto|]. split; [|reflexivity].
      intros r H. cbn. rewrite H. f_equal. unfold total. cbn. ring.
    - rewrite runl_app. destruct (fill_run t p n0 q m) as (A & B & C & D & E & F).
      set (m1 := run (fill vt t p (n0, q)) m) in *.
      destruct (IH (S n0) m1) as (I1 & I2 & I3 & I4). cbv zeta in *.
      set (m2 := run (flat_map (fill vt t p) (combine (seq (S n0) (length obj)) obj)) m1) in *.
      split; [|split; [|split]].
      + intros [|i] q' Hq.
        * injection Hq as <-. rewrite Nat.add_0_r. destruct (I2 n0) as (X & Y & Z); [lia|]. rewrite X, Y, Z. auto.
        * specialize (I1 i q' Hq). replace (n0 + S i)%nat with (S n0 + i)%nat by lia. exact I1.
      + intros n Hn. destruct (I2 n) as (X & Y & Z); [lia|]. rewrite X, Y, Z. apply E. lia.
      + intros r Hr. specialize (I3 (r + snd q)). unfold getr in D. rewrite Hr in D. rewrite (I3 D).
        f_equal. change (total snd (q :: obj)) with (snd q + total snd obj). ring.
      + congruence.
  Qed.

  Lemma map_seq_nth_error {X Y} (f : nat -> Y) (g : X -> Y) (l : list X) : forall n0,
    (forall i x, nth_error l i = Some x -> f (n0 + i)%nat = g x) -> map f (seq n0 (length l)) = map g l.
  Proof.
    induction l as [|x l IH]; intros n0 H; [reflexivity|]. cbn [length seq map]. f_equal.
    - rewrite <- (Nat.add_0_r n0). apply H. reflexivity.
    - apply IH. intros i y Hy. rewrite Nat.add_succ_comm. apply H. exact Hy.
  Qed.

  Lemma write_rows_run f l : (forall a b, f a = f b -> a = b) -> forall n0 m,
    let m' := fold_left (fun m nv => supd m (f (fst nv)) (VV (snd nv))) (combine (seq n0 (length l)) l) m in
    (forall i x, nth_error l i = Some x -> m' (f (n0 + i)%nat) = VV x) /\
    (forall y, (forall i, (n0 <= i < n0 + length l)%nat -> y <> f i) -> m' y = m y).
  Proof.
    intros Hf. induction l as [|x l IH]; intros n0 m; cbn [length seq combine fold_left]; cbv zeta.
    - split; [intros [|i] x H; discriminate|auto].
    - cbn [fst snd]. destruct (IH (S n0) (supd m (f n0) (VV x))) as (I1 & I2). cbv zeta in *. split.
      + intros [|i] y H.
        * injection H as <-. rewrite Nat.add_0_r. rewrite I2; [sup; reflexivity|].
          intros i Hi E. apply Hf in E. lia.
        * replace (n0 + S i)%nat with (S n0 + i)%nat by lia. apply I1. exact H.
      + intros y Hy. rewrite I2; [|intros i Hi; apply Hy; lia].
        rewrite supd_other; auto. apply Hy. lia.
  Qed.

  Lemma cy_respect_length l : length (cy_respectPBCNoRef l L) = length l.
  Proof.
    unfold cy_respectPBCNoRef. destruct Req_EM_T; auto. destruct l; auto. cbn. rewrite map_length. reflexivity.
  Qed.

  Definition vcom (obj : list vptc) : vec :=
    match vt with
    | LocalVel => cy_calcCoM (combine (map (fun _ => v0) obj) (map snd obj))
    | GlobalVel => cy_calcCoM (combine (map vel obj) (map snd obj))
    | _ => v0
    end.

  Definition expected (p : nat) (x : sloc) : sval :=
    match x with
    | SOut _ => VMs (obj_shape eig fuel c L vt (nth p objs []) (nth p r200 0) (nth p centers v0))
    | SMass _ => VR (total snd (nth p objs []))
    | _ => VV (vcom (nth p objs []))
    end.
  Definition own (p : nat) (x : sloc) : Prop := x = SOut p \/ x = SMass p \/ x = SVc p.
  Definition priv (t : nat) (x : sloc) : Prop := x = SMorph t \/ exists n, x = SXyz t n \/ x = SVel t n \/ x = SM t n.

  Lemma body_run t p m : m (SMass p) = VR 0 -> m (SVc p) = VV v0 ->
    forall x, own p x -> run (body t p) m x = expected p x.
  Proof.
    intros H0 Hv0 x Hx. unfold shape_body. set (obj := nth p objs []).
    rewrite runl_app.
    destruct (fills_run t p obj 0 m) as (A & _ & B & D). cbv zeta in *.
    set (m1 := run (flat_map (fill vt t p) (combine (seq 0 (length obj)) obj)) m) in *.
    specialize (B 0 H0). rewrite Rplus_0_l in B. rewrite Hv0 in D.
    assert (R1 : rows m1 (SXyz t) (length obj) = map pos obj).
    { apply map_seq_nth_error. intros i q Hq. unfold getv. rewrite (proj1 (A i q Hq)). reflexivity. }
    unfold runl. cbn [app fold_left]. rewrite R1.
    set (X := cy_respectPBCNoRef (map pos obj) L).
    assert (HX : length X = length obj) by (unfold X; rewrite cy_respect_length, map_length; reflexivity).
    destruct (write_rows_run (SXyz t) X ltac:(intros a b E; congruence) 0 m1) as (W1 & W2). cbv zeta in *.
    fold (write_rows m1 (SXyz t) X) in W1, W2. set (m2 := write_rows m1 (SXyz t) X) in *.
    assert (E1 : rows m2 (SXyz t) (length obj) = X).
    { rewrite <- HX. rewrite <- (map_id X) at 2. apply map_seq_nth_error. intros i q Hq. unfold getv.
      rewrite (W1 i q Hq). reflexivity. }
    assert (E2 : map (fun n => getr m2 (SM t n)) (seq 0 (length obj)) = map snd obj).
    { apply map_seq_nth_error. intros i q Hq. unfold getr. rewrite W2 by (intros; congruence).
      rewrite (proj1 (proj2 (A i q Hq))). reflexivity. }
    assert (E3 : vt = GlobalVel -> rows m2 (SVel t) (length obj) = map vel obj).
    { intros Hvt. apply map_seq_nth_error. intros i q Hq. unfold getv. rewrite W2 by (intros; congruence).
      rewrite (proj2 (proj2 (A i q Hq)) Hvt). reflexivity. }
    assert (E4 : m2 (SMass p) = VR (total snd obj)) by (rewrite W2 by (intros; congruence); exact B).
    assert (E5 : m2 (SVc p) = VV v0) by (rewrite W2 by (intros; congruence); exact D).
    assert (E6 : map (fun _ : nat => v0) (seq 0 (length obj)) = map (fun _ => v0) obj)
      by (apply map_seq_nth_error; auto).
    assert (C : forall m3, (forall n, m3 (SXyz t n) = m2 (SXyz t n)) -> (forall n, m3 (SM t n) = m2 (SM t n)) ->
                  (forall n, m3 (SVel t n) = m2 (SVel t n)) -> (vt = LocalVel \/ vt = GlobalVel -> m3 (SVc p) = VV (vcom obj)) ->
                  compute eig fuel c vt r200 centers t p (length obj) m3 =
                  obj_shape eig fuel c L vt obj (nth p r200 0) (nth p centers v0)).
    { intros m3 X1 X2 X3 X4. unfold compute, obj_shape. fold X.
      replace (rows m3 (SXyz t) (length obj)) with X
        by (rewrite <- E1; unfold rows, getv; apply map_ext; intros n; rewrite X1; reflexivity).
      replace (map (fun n => getr m3 (SM t n)) (seq 0 (length obj))) with (map snd obj)
        by (rewrite <- E2; unfold getr; apply map_ext; intros n; rewrite X2; reflexivity).
      assert (X5 : vt = GlobalVel -> rows m3 (SVel t) (length obj) = map vel obj)
        by (intros Hvt; rewrite <- E3 by auto; unfold rows, getv; apply map_ext; intros n; rewrite X3; reflexivity).
      unfold vel_rows, vcom, getv in *. destruct vt; cbn [is_local]; auto.
      - rewrite X4, E6 by auto. reflexivity.
      - rewrite X4, X5 by auto. reflexivity. }
    assert (V : vel_rows vt m2 t (length obj) = match vt with GlobalVel => map vel obj | _ => map (fun _ => v0) obj end).
    { unfold vel_rows. destruct vt; auto. }
    assert (G : forall m3, (forall n, m3 (SXyz t n) = m2 (SXyz t n)) -> (forall n, m3 (SM t n) = m2 (SM t n)) ->
                  (forall n, m3 (SVel t n) = m2 (SVel t n)) -> m3 (SVc p) = VV (vcom obj) -> m3 (SMass p) = VR (total snd obj) ->
                  let m4 := supd m3 (SMorph t) (VMs (compute eig fuel c vt r200 centers t p (length obj) m3)) in
                  supd m4 (SOut p) (m4 (SMorph t)) x = expected p x).
    { intros m3 X1 X2 X3 X4 X5. cbv zeta. rewrite (C m3) by auto. unfold expected. fold obj.
      destruct Hx as [-> |[-> | ->]]; sup; auto. }
    assert (Hvc : vcom obj = match vt with LocalVel => cy_calcCoM (combine (map (fun _ => v0) obj) (map snd obj))
                             | GlobalVel => cy_calcCoM (combine (map vel obj) (map snd obj)) | _ => v0 end) by reflexivity.
    clearbody m2 m1. rewrite Hvc in G. clear Hvc. revert V G. generalize (expected p x) (compute eig fuel c vt r200 centers t p (length obj)).
    destruct vt; cbn [app fold_left]; intros sv cp V G.
    - apply G; auto.
    - apply G; auto.
    - rewrite V, E2. apply G; intros; sup; auto.
    - rewrite V, E2. apply G; intros; sup; auto.
  Qed.

  Lemma within_body t p : Forall (within sloc sval (fun x => own p x \/ priv t x)) (body t p).
  Proof.
    unfold shape_body. set (obj := nth p objs []).
    assert (W : forall x f, (own p x \/ priv t x) ->
               (forall m m', (forall y, own p y \/ priv t y -> m y = m' y) -> f m = f m') ->
               within sloc sval (fun x => own p x \/ priv t x) (fun m => supd m x (f m))).
    { intros x f Hx Hf. split.
      - intros m y Hy. rewrite supd_other; auto. intros ->. auto.
      - intros m m' He y Hy. unfold supd. destruct (sloc_eq y x); [apply Hf; auto|auto]. }
    assert (P1 : forall n, own p (SXyz t n) \/ priv t (SXyz t n)) by (intros; right; right; eauto).
    assert (P2 : forall n, own p (SVel t n) \/ priv t (SVel t n)) by (intros; right; right; eauto).
    assert (P3 : forall n, own p (SM t n) \/ priv t (SM t n)) by (intros; right; right; eauto).
    assert (P4 : own p (SMorph t) \/ priv t (SMorph t)) by (right; left; auto).
    assert (P5 : own p (SOut p) \/ priv t (SOut p)) by (left; left; auto).
    assert (P6 : own p (SMass p) \/ priv t (SMass p)) by (left; right; left; auto).
    assert (P7 : own p (SVc p) \/ priv t (SVc p)) by (left; right; right; auto).
    assert (Rw : forall f k m m', (forall n, own p (f n) \/ priv t (f n)) ->
               (forall y, own p y \/ priv t y -> m y = m' y) -> rows m f k = rows m' f k).
    { intros f k m m' Hf He. apply map_ext. intros n. unfold getv. rewrite He; auto. }
    assert (Vr : forall k m m', (forall y, own p y \/ priv t y -> m y = m' y) -> vel_rows vt m t k = vel_rows vt m' t k).
    { intros k m m' He. unfold vel_rows. destruct vt; auto. }
    assert (Mr : forall k m m', (forall y, own p y \/ priv t y -> m y = m' y) ->
               map (fun n => getr m (SM t n)) (seq 0 k) = map (fun n => getr m' (SM t n)) (seq 0 k)).
    { intros k m m' He. apply map_ext. intros n. unfold getr. rewrite He; auto. }
    rewrite !Forall_app. split; [|split; [|split]].
    - apply Forall_flat_map. apply Forall_forall. intros [n [[x v] mm]] _. unfold fill.
      rewrite !Forall_app. split; [|split].
      + constructor; auto.
      + destruct vt; constructor; auto.
      + constructor; [|constructor; [|constructor]]; auto.
        apply (W (SMass p) (fun m => VR (getr m (SMass p) + mm))); auto.
        intros m m' He. unfold getr. rewrite He; auto.
    - constructor; [|constructor]. split.
      + intros m y Hy. unfold write_rows.
        destruct (write_rows_run (SXyz t) (cy_respectPBCNoRef (rows m (SXyz t) (length obj)) L) ltac:(intros a b E; congruence) 0 m) as [_ W2].
        apply W2. intros i _ ->. auto.
      + intros m m' He y Hy. rewrite (Rw (SXyz t) (length obj) m m') by auto.
        set (X := cy_respectPBCNoRef _ L). unfold write_rows.
        destruct (write_rows_run (SXyz t) X ltac:(intros a b E; congruence) 0 m) as [W1 W2].
        destruct (write_rows_run (SXyz t) X ltac:(intros a b E; congruence) 0 m') as [W3 W4]. cbv zeta in *.
        assert (Hd : (exists i, (i < length X)%nat /\ y = SXyz t i) \/ (forall i, (0 <= i < 0 + length X)%nat -> y <> SXyz t i)).
        { destruct y as [t' n|t' n|t' n|t'|q|q|q]; try (right; intros; congruence).
          destruct (Nat.eq_dec t' t) as [-> |Hn]; [|right; intros; congruence].
          destruct (lt_dec n (length X)); [left; eauto|right]. intros i Hi E. injection E as ->. lia. }
        destruct Hd as [(i & Hi & ->)|Hd].
        * destruct (nth_error X i) eqn:E; [|apply nth_error_None in E; lia].
          specialize (W1 i v E). specialize (W3 i v E). cbn [plus] in W1, W3. rewrite W1, W3. reflexivity.
        * rewrite W2, W4 by auto. auto.
    - assert (Hc : within sloc sval (fun x => own p x \/ priv t x)
             (fun m => supd m (SVc p) (VV (cy_calcCoM (combine (vel_rows vt m t (length obj)) (map (fun n => getr m (SM t n)) (seq 0 (length obj)))))))).
      { apply (W (SVc p) (fun m => VV (cy_calcCoM (combine (vel_rows vt m t (length obj)) (map (fun n => getr m (SM t n)) (seq 0 (length obj))))))); auto.
        intros m m' He. rewrite (Vr _ m m'), (Mr _ m m') by auto. reflexivity. }
      destruct vt; constructor; auto.
    - constructor; [|constructor; [|constructor]].
      + apply (W (SMorph t) (fun m => VMs (compute eig fuel c vt r200 centers t p (length obj) m))); auto.
        intros m m' He. unfold compute. rewrite (Rw (SXyz t) _ m m'), (Mr _ m m'), (Vr _ m m') by auto.
        replace (getv m (SVc p)) with (getv m' (SVc p)) by (unfold getv; rewrite He; auto). reflexivity.
      + apply (W (SOut p) (fun m => m (SMorph t))); auto.
  Qed.

  (** One exception aborts the call; otherwise each row is that of its object. *)
  Theorem driver_result r : calcMorph eig fuel c L vt objs r200 centers r ->
    let shape p := obj_shape eig fuel c L vt (nth p objs []) (nth p r200 0) (nth p centers v0) in
    r = if existsb (fun p => raised (VMs (shape p))) (seq 0 (length objs)) then ZeroDivision
        else Ret (map (fun p => entry (VMs (shape p))) (seq 0 (length objs)),
                  map (fun p => total snd (nth p objs [])) (seq 0 (length objs))).
  Proof.
    intros H. cbv zeta. destruct H as [m' H].
    destruct (prange_spec sloc sval (length objs) body own priv expected smem0 m') as [R1 _]; auto.
    - intros p q x Hpq _ _ [-> |[-> | ->]] [E|[E|E]]; congruence.
    - intros s t x Hst [-> |(n & [-> |[-> | ->]])] [E|(n' & [E|[E|E]])]; congruence.
    - intros p t x _ [-> |[-> | ->]] [E|(n & [E|[E|E]])]; congruence.
    - intros t p _. apply within_body.
    - intros t p m _ Hm x Hx. apply body_run; auto; rewrite Hm; try reflexivity; unfold own; auto.
    - assert (RO : forall p, In p (seq 0 (length objs)) -> m' (SOut p) = expected p (SOut p)).
      { intros p Hp. apply in_seq in Hp. apply R1; unfold own; auto; lia. }
      assert (E : forall (f g : nat -> bool) l, (forall p, In p l -> f p = g p) -> existsb f l = existsb g l).
      { intros f g l Hl. induction l as [|a l IH]; cbn; [reflexivity|]. rewrite Hl by (left; auto).
        rewrite IH by (intros; apply Hl; right; auto). reflexivity. }
      rewrite (E _ (fun p => raised (VMs (obj_shape eig fuel c L vt (nth p objs []) (nth p r200 0) (nth p centers v0)))))
        by (intros p Hp; rewrite RO by auto; reflexivity).
      destruct existsb; [reflexivity|]. f_equal. f_equal; apply map_ext_in; intros p Hp.
      + rewrite RO by auto. reflexivity.
      + apply in_seq in Hp. unfold getr. rewrite (R1 p (SMass p)) by (unfold own; auto; lia). reflexivity.
  Qed.
End Par.
