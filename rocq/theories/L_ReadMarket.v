(** Proofs: reading market data and fixings, whose objects are worked out again. *)
From Coq Require Import ZArith List String Bool Lia.
From Verif Require Import Prelude Num M_Search M_Dates M_Calendar M_Interp M_Curves M_Fixings M_Forward M_Vol M_Black76 M_Instruments
  M_Risk M_Reports M_MonteCarlo M_Schema M_Serde M_Objects M_Facade S_Serde S_Objects S_Facade S_Read
  L_Search L_Interp L_Fixings L_Serde L_Objects L_Market L_RoundTrip L_Read L_Facade L_ReadObjects.
Import ListNotations.
Open Scope string_scope.
Open Scope list_scope.

(** ** Interpolating panics only over points that cannot be ordered *)

Lemma search_bounds {A} (l : list A) f :
  match binary_search_by l f with Found i => (i < List.length l)%nat | Missing i => (i <= List.length l)%nat end.
Proof.
  unfold binary_search_by. destruct (nth_error l _) as [a|] eqn:E; [|lia].
  assert (B := proj1 (nth_error_Some l _) (ltac:(rewrite E; discriminate))). destruct (f a); lia.
Qed.

Lemma at_bound {A} (l : list A) i : (i < List.length l)%nat -> exists a, at_ l i = Ok a.
Proof. intros B. unfold at_. destruct (nth_error l i) eqn:E; [eauto|]. apply nth_error_None in E. lia. Qed.

Section Safe.
  Context {T : Type} {N : Num T}.
  Variable nan : T.
  Context {X : Type} {XI : Interpolable X T}.

  Definition calm {A} (r : res A) : Prop := forall p, r <> Panic p.

  Lemma calm_extrapolate e x : calm (extrapolate nan e x).
  Proof. destruct e; discriminate. Qed.
  Lemma calm_interpolate (p q : X * T) x : calm (linear_interpolate p q x).
  Proof. unfold linear_interpolate. destruct (_ <? _)%num; discriminate. Qed.
  Lemma find_calm (points : list (X * T)) x : find points x = Ok (binary_search_by points (fun p => interp_cmp (fst p) x)) \/
    exists p, In p points /\ interp_ord (fst p) x = false.
  Proof.
    unfold find. destruct (forallb _ _) eqn:E; [left; reflexivity|right].
    assert (Q : exists p, In p (probes points (fun p => interp_cmp (fst p) x)) /\ interp_ord (fst p) x = false).
    { revert E. generalize (probes points (fun p => interp_cmp (fst p) x)). intros l. induction l as [|a l IH]; cbn [forallb]; [discriminate|].
      destruct (interp_ord (fst a) x) eqn:O; cbn [andb]; intros E; [|exists a; split; [now left|exact O]].
      destruct (IH E) as (p & I & O'). exists p. split; [now right|exact O']. }
    destruct Q as (p & I & O). exists p. split; [now apply probes_in in I|exact O].
  Qed.
  Lemma calm_linear (l : linear T X) x : (forall p, In p (lin_points l) -> interp_ord (fst p) x = true) -> calm (linear_at nan l x).
  Proof.
    intros O. unfold linear_at, linear_interpolate_extrapolate. set (points := lin_points l).
    destruct (Nat.eqb_spec (List.length points) 0) as [E|NE]; [discriminate|].
    rewrite (find_ordered points x O). cbn [bind].
    pose proof (search_bounds points (fun p => interp_cmp (fst p) x)) as B.
    destruct (binary_search_by points _) as [i|i].
    - destruct (at_bound points i B) as (a & ->). discriminate.
    - destruct (Nat.eqb_spec i 0) as [->|N0]; [|destruct (Nat.leb_spec (List.length points) i) as [L|L]].
      + destruct (at_bound points 0) as (a & ->); [lia|]. cbn [bind].
        destruct (is_natural (lin_left l) && Nat.ltb 1 (List.length points)) eqn:E; [|apply calm_extrapolate].
        apply andb_prop in E as [_ E]. apply Nat.ltb_lt in E.
        destruct (at_bound points 1) as (b & ->); [lia|]. apply calm_interpolate.
      + destruct (at_bound points (List.length points - 1)) as (a & ->); [lia|]. cbn [bind].
        destruct (is_natural (lin_left l) && Nat.ltb 1 (List.length points)) eqn:E; [|apply calm_extrapolate].
        apply andb_prop in E as [_ E]. apply Nat.ltb_lt in E.
        destruct (at_bound points (List.length points - 2)) as (b & ->); [lia|]. apply calm_interpolate.
      + destruct (at_bound points (i - 1)) as (a & ->); [lia|].
        destruct (at_bound points i) as (b & ->); [lia|]. apply calm_interpolate.
  Qed.

  Lemma decompose_length (points : list (X * T)) : forall p y u,
    List.length (spline_decompose p points y u) = (List.length points - 1)%nat.
  Proof.
    induction points as [|q points IH]; intros p y u; [reflexivity|]. destruct points as [|r points]; [reflexivity|].
    assert (E : exists a b c, spline_decompose p (q :: r :: points) y u = a :: spline_decompose q (r :: points) b c)
      by (eexists _, _, _; reflexivity).
    destruct E as (a & b & c & ->). cbn [List.length]. rewrite IH. cbn [List.length]. lia.
  Qed.
  Lemma backsub_length (l : list (T * T)) x : List.length (snd (spline_backsub l x)) = S (List.length l).
  Proof.
    induction l as [|[a u] l IH]; [reflexivity|]. cbn [spline_backsub].
    destruct (spline_backsub l x) as [next rest]. cbn [snd List.length] in *. rewrite IH. reflexivity.
  Qed.
  Lemma nr_spline_length (xy : list (X * T)) a b l : nr_spline xy a b = Ok l -> List.length l = List.length xy.
  Proof.
    unfold nr_spline. destruct xy as [|p0 [|p1 xy]]; [discriminate..|].
    destruct (match a with None => _ | Some d => _ end) as [y20 u0].
    generalize (decompose_length (p1 :: xy) p0 y20 u0). generalize (spline_decompose p0 (p1 :: xy) y20 u0). intros inner L.
    destruct (last _ _) as [y2m um]. destruct (match b with None => _ | Some d => _ end) as [qn un].
    intros H. injection H as <-. cbn [List.length]. rewrite backsub_length, L. cbn [List.length]. lia.
  Qed.
  Lemma spline_load_short (points : list (X * T)) lx rx p : spline_load points lx rx = Panic p -> (List.length points < 2)%nat.
  Proof.
    unfold spline_load, nr_spline. destruct points as [|p0 [|p1 points]]; cbn [List.length]; try lia.
    repeat match goal with |- context [let '(_, _) := ?x in _] => destruct x end. discriminate.
  Qed.
  Lemma spline_load_noerr (points : list (X * T)) lx rx e : spline_load points lx rx <> Err e.
  Proof.
    unfold spline_load, nr_spline. destruct points as [|p0 [|p1 points]]; try discriminate.
    repeat match goal with |- context [let '(_, _) := ?x in _] => destruct x end. discriminate.
  Qed.
  Lemma spline_load_same (points : list (X * T)) lx rx sp : spline_load points lx rx = Ok sp ->
    sp_points sp = points /\ sp_left sp = lx /\ sp_right sp = rx /\ List.length (sp_second sp) = List.length points.
  Proof.
    unfold spline_load. destruct (nr_spline _ _ _) as [l|e|e] eqn:E; [|discriminate..]. apply nr_spline_length in E.
    cbn [bind]. intros H. injection H as <-. auto.
  Qed.
  Lemma calm_splint (p q : X * T) a b x : calm (nr_splint p q a b x).
  Proof. unfold nr_splint. destruct (_ =? _)%num; discriminate. Qed.
  Lemma calm_spline (sp : spline T X) x : (2 <= List.length (sp_points sp))%nat ->
    List.length (sp_second sp) = List.length (sp_points sp) -> forall m, spline_at nan sp x = Panic m ->
    exists p, In p (sp_points sp) /\ interp_ord (fst p) x = false.
  Proof.
    intros L2 LS m H. destruct (find_calm (sp_points sp) x) as [Fd|O]; [exfalso; revert m H|exact O].
    change (calm (spline_at nan sp x)). unfold spline_at. set (points := sp_points sp) in *. set (n := List.length points) in *.
    destruct (Nat.eqb_spec n 0) as [E|NE]; [discriminate|].
    pose (piece := fun i => let* p0 := at_ points i in let* p1 := at_ points (i + 1) in let* m0 := at_ (sp_second sp) i in
                            let* m1 := at_ (sp_second sp) (i + 1) in nr_splint p0 p1 m0 m1 x). assert (PC : forall i, (i + 1 < n)%nat -> calm (piece i)).
    { intros i B. unfold piece. destruct (at_bound points i) as (p & ->); [lia|].
      destruct (at_bound points (i + 1)) as (q & ->); [lia|]. destruct (at_bound (sp_second sp) i) as (a & ->); [lia|].
      destruct (at_bound (sp_second sp) (i + 1)) as (b & ->); [lia|]. apply calm_splint. }
    rewrite Fd. cbn [bind]. pose proof (search_bounds points (fun p => interp_cmp (fst p) x)) as B.
    destruct (binary_search_by points _) as [i|i].
    - destruct (at_bound points i B) as (a & ->). discriminate.
    - destruct (Nat.eqb_spec i 0) as [->|N0]; [|destruct (Nat.leb_spec n i) as [L|L]].
      + destruct (_ && _); [apply (PC 0%nat); lia|]. destruct (at_bound points 0) as (a & ->); [lia|]. apply calm_extrapolate.
      + destruct (_ && _); [apply (PC (n - 2)%nat); lia|]. destruct (at_bound points (n - 1)) as (a & ->); [lia|]. apply calm_extrapolate.
      + apply (PC (i - 1)%nat). fold n in B. lia.
  Qed.
End Safe.

(** ** Pieces *)

Lemma piece_self {T} (v : val T) : In v (pieces v).
Proof. destruct v; left; reflexivity. Qed.

Lemma pieces_trans {T} (v : val T) : forall u w, In u (pieces v) -> In w (pieces u) -> In w (pieces v).
Proof.
  induction v as [s|x|z|b|d|n|n u0 IH|fs IH|l IH|l IH|m IH|tr id u0 IH|k u0 IH] using val_induction; intros u w [<-|H] W;
    try exact W; try destruct H; right.
  - exact (IH u w H W).
  - apply in_flat_map in H as ([n u'] & I & H). rewrite Forall_forall in IH. apply in_flat_map. exists (n, u').
    split; [exact I | exact (IH _ I u w H W)].
  - apply in_flat_map in H as (u' & I & H). rewrite Forall_forall in IH. apply in_flat_map. exists u'.
    split; [exact I | exact (IH _ I u w H W)].
  - apply in_flat_map in H as (u' & I & H). rewrite Forall_forall in IH. apply in_flat_map. exists u'.
    split; [exact I | exact (IH _ I u w H W)].
  - apply in_flat_map in H as ([n u'] & I & H). rewrite Forall_forall in IH. apply in_flat_map. exists (n, u').
    split; [exact I | exact (IH _ I u w H W)].
  - exact (IH u w H W).
  - exact (IH u w H W).
Qed.

(** ** Outcomes *)

Definition comes {A} (P : A -> Prop) (E : string -> Prop) (B : Prop) (r : res A) : Prop :=
  match r with Ok a => P a | Err e => E e | Panic _ => B end.

Lemma comes_bind {A C} (P : A -> Prop) (Q : C -> Prop) E B r (f : A -> res C) :
  comes P E B r -> (forall a, P a -> comes Q E B (f a)) -> comes Q E B (bind r f).
Proof. destruct r; cbn [comes bind]; auto. Qed.

Lemma comes_weaken {A} (P Q : A -> Prop) (E E' : string -> Prop) (B B' : Prop) r :
  (forall a, P a -> Q a) -> (forall e, E e -> E' e) -> (B -> B') -> comes P E B r -> comes Q E' B' r.
Proof. destruct r; cbn [comes]; auto. Qed.

Lemma comes_mapM {A C} (f : A -> res C) (P : C -> Prop) E B l : Forall (fun a => comes P E B (f a)) l ->
  comes (Forall P) E B (mapM f l).
Proof.
  induction 1 as [|a l H _ IH]; cbn [mapM]; [constructor|]. eapply comes_bind; [exact H|]. intros c Pc.
  eapply comes_bind; [exact IH|]. intros cs Pcs. constructor; assumption.
Qed.

Lemma foldM_panics {A S} (f : S -> A -> res S) l : forall s m, foldM f s l = Panic m -> exists s' a, In a l /\ f s' a = Panic m.
Proof.
  induction l as [|a l IH]; cbn [foldM]; intros s m H; [discriminate|].
  destruct (f s a) as [s1|e|e] eqn:E; [|discriminate|].
  - destruct (IH s1 m H) as (s' & a' & I & K). exists s', a'. split; [right; exact I | exact K].
  - cbn [bind] in H. injection H as ->. exists s, a. split; [left; reflexivity | exact E].
Qed.

Section Market.
  Context {T : Type} {N : Num T} {TR : Trans T}.
  Variable finite : T -> bool.
  Variable nan : T.
  Notation conforms := (conforms finite).

  Definition bad (v : val T) : Prop := short_smile v \/ uncountable v \/ incomparable nan v.

  Lemma bad_piece u v : In u (pieces v) -> bad u -> bad v.
  Proof.
    intros I [(l & r & ps & M & L) | [(c & a & b & m & Mc & Ma & Mb & E)|(fwd & d & f & l & r & ps & k & y & Mf & Md & Ms & E)]].
    - left. exists l, r, ps. split; [exact (pieces_trans v u _ I M) | exact L].
    - right. left. exists c, a, b, m. repeat split; try (eapply pieces_trans; eassumption). exact E.
    - right. right. exists fwd, d, f, l, r, ps, k, y. do 3 (split; [eapply pieces_trans; eassumption|]). exact E.
  Qed.
  Lemma field_piece n u (fs : list (string * val T)) : In (n, u) fs -> In u (pieces (VStruct fs)).
  Proof. intros I. right. apply in_flat_map. exists (n, u). split; [exact I | apply piece_self]. Qed.
  Lemma entry_piece n u (fs : list (string * val T)) : In (n, u) fs -> In u (pieces (VMap fs)).
  Proof. intros I. right. apply in_flat_map. exists (n, u). split; [exact I | apply piece_self]. Qed.
  Lemma item_piece u (l : list (val T)) : In u l -> In u (pieces (VVec l)).
  Proof. intros I. right. apply in_flat_map. exists u. split; [exact I | apply piece_self]. Qed.
  Lemma member_piece u (l : list (val T)) : In u l -> In u (pieces (VTuple l)).
  Proof. intros I. right. apply in_flat_map. exists u. split; [exact I | apply piece_self]. Qed.
  Lemma tagged_piece tr id u (v : val T) : In v (pieces u) -> In v (pieces (VTagged tr id u)).
  Proof. intros I. right. exact I. Qed.

  Lemma num_back (x : T) : num_of_val (VNum x) = Ok x.
  Proof. reflexivity. Qed.

  Lemma comes_smile m : conforms m ty_spline_smile ->
    comes (storable_spline finite) (fun _ => False) (short_smile m) (smile_of_val m).
  Proof.
    intros H. unfold ty_spline_smile in H. apply is_struct in H as (fs & -> & H).
    apply is_field in H as (u & fs' & -> & C & H). apply is_end in H as ->.
    apply (made_points finite VNum (fin finite) TF64 u (made_num finite)) in C as (lx & rx & ps & -> & P).
    assert (E : smile_of_val (VStruct [("smile", val_of_points VNum lx rx ps)]) =
                let* sp := spline_load ps lx rx in Ok (CubicSplineSmile sp)).
    { unfold smile_of_val. rewrite (back_points VNum num_of_val lx rx ps num_back). reflexivity. }
    rewrite E. destruct (spline_load ps lx rx) as [sp|e|e] eqn:L; cbn [bind comes].
    - cbn [storable_spline]. destruct (spline_load_same _ _ _ _ L) as (-> & -> & -> & _). split; assumption.
    - destruct (spline_load_noerr _ _ _ _ L).
    - exists (VUnit (extrap_name lx)), (VUnit (extrap_name rx)),
        (map (fun p => match p with (x, y) => VTuple [VNum x; VNum y] end) ps).
      split; [left; reflexivity|]. rewrite map_length. exact (spline_load_short _ _ _ _ L).
  Qed.

  Lemma calm_smile (m : smile T) x e : storable_spline finite m -> smile_at nan m x = Panic e ->
    exists sp p, m = CubicSplineSmile sp /\ In p (sp_points sp) /\ interp_ord (fst p) x = false.
  Proof.
    destruct m as [v|sp]; [intros []|]. intros [_ L] H. destruct (spline_load_same _ _ _ _ L) as (_ & _ & _ & LS).
    exists sp. enough (Q : exists p, In p (sp_points sp) /\ interp_ord (fst p) x = false) by (destruct Q as (p & Q); exists p; split; [reflexivity|exact Q]).
    refine (calm_spline nan sp x _ LS e H). clear H.
    revert L. unfold spline_load, nr_spline. destruct (sp_points sp) as [|p0 [|p1 ps]]; try discriminate. cbn [List.length]. lia.
  Qed.

  Lemma calm_curve (l : linear T date) d : calm (linear_at nan l d).
  Proof. now apply calm_linear. Qed.

  Lemma vbp_panics smiles cal base fwd divs da m : Forall (fun s => storable_spline finite (snd s)) smiles ->
    vbp_new nan smiles cal base fwd divs da = Panic m -> exists s, In s smiles /\
      (year_fraction cal base (fst s) = Panic m \/
       exists f sp p, linear_at nan fwd (ddf_date (fst s)) = Ok f /\ snd s = CubicSplineSmile sp /\ In p (sp_points sp) /\ interp_ord (fst p) f = false).
  Proof.
    intros F H. unfold vbp_new in H. destruct smiles as [|s0 smiles]; [discriminate|].
    destruct (foldM (vbp_pillar nan cal base fwd) _ _) as [[acc [[fs ss] ts]]|e|e] eqn:E; [discriminate..|].
    cbn [bind] in H. injection H as ->. apply foldM_panics in E as ([prev [[fs ss] ts]] & s & I & E). exists s. split; [exact I|].
    unfold vbp_pillar in E. rewrite Forall_forall in F.
    destruct (linear_at nan fwd _) as [f|e|e] eqn:Ef; [|discriminate | destruct (calm_curve fwd _ _ Ef)].
    cbn [bind] in E. destruct (smile_at nan (snd s) f) as [vol|e|e] eqn:Ev;
      [|discriminate |right; destruct (calm_smile _ _ _ (F s I) Ev) as (sp & p & Q); exists f, sp, p; tauto].
    left. cbn [bind] in E. destruct (year_fraction cal base (fst s)) as [t|e|e]; [|discriminate E | cbn [bind] in E; injection E as ->; reflexivity].
    cbn [bind] in E. destruct (_ <? _)%num in E; discriminate E.
  Qed.

  Lemma vbp_same smiles cal base fwd divs da p : vbp_new nan smiles cal base fwd divs da = Ok p ->
    vbp_smiles p = smiles /\ vbp_calendar p = cal /\ vbp_base p = base /\ vbp_forward p = fwd /\ vbp_fixed_divs p = divs /\
    vbp_assumptions p = da.
  Proof.
    unfold vbp_new. destruct smiles as [|s0 smiles]; [discriminate|].
    destruct (foldM (vbp_pillar nan cal base fwd) _ _) as [[acc [[fs ss] ts]]|e|e]; [|discriminate..].
    cbn [bind]. intros H. injection H as <-. auto 10.
  Qed.

  Lemma made_assumptions v : conforms v (unit_enum ["NoCashDivs"; "IndependentLogNormals"; "FixedDivs"; "JumpDivs"]) ->
    exists a, v = VUnit (assumptions_name a).
  Proof.
    intros H. apply is_unit in H as (n & -> & H). cbn [In] in H. repeat destruct H as [<-|H]; try destruct H;
      [exists NoCashDivs | exists IndependentLogNormals | exists FixedDivs | exists JumpDivs]; reflexivity.
  Qed.

  Definition comes_vol (v : val T) : Prop := comes (storable_vol finite nan) (rejected nan) (bad v) (vol_of_val nan v).

  Lemma piece_tail (u v : val T) l : In v (pieces (VVec l)) -> v <> VVec l -> In v (pieces (VVec (u :: l))).
  Proof. intros [E|I] NE; [now destruct NE|]. right. cbn [flat_map]. apply in_app_iff. right. exact I. Qed.

  Lemma smile_points m sp : conforms m ty_spline_smile -> smile_of_val m = Ok (CubicSplineSmile sp) ->
    exists lx rx, m = VStruct [("smile", val_of_points VNum lx rx (sp_points sp))].
  Proof.
    intros H E0. unfold ty_spline_smile in H. apply is_struct in H as (fs & -> & H).
    apply is_field in H as (u & fs' & -> & C & H). apply is_end in H as ->.
    apply (made_points finite VNum (fin finite) TF64 u (made_num finite)) in C as (lx & rx & ps & -> & P). exists lx, rx.
    unfold smile_of_val in E0. rewrite (back_points VNum num_of_val lx rx ps num_back) in E0. cbn [bind] in E0.
    destruct (spline_load ps lx rx) as [sp'|e|e] eqn:L; [|discriminate..]. cbn [bind] in E0. injection E0 as <-.
    destruct (spline_load_same _ _ _ _ L) as (-> & _). reflexivity.
  Qed.

  Lemma comes_pillars l c base : Forall (fun u => conforms u (TTuple [ty_ddf; ty_spline_smile])) l ->
    comes (Forall (fun s => storable_ddf finite (fst s) /\ storable_spline finite (snd s))) (rejected nan)
      (bad (VVec l))
      (mapM (fun p => match p with
                      | VTuple [d; m] => let* d' := ddf_of_val d in let* m' := smile_of_val m in Ok (d', m')
                      | _ => ill
                      end) l) /\
    (forall smiles fwd divs da m, Forall (fun s => storable_spline finite (snd s)) smiles ->
       mapM (fun p => match p with
                      | VTuple [d; m] => let* d' := ddf_of_val d in let* m' := smile_of_val m in Ok (d', m')
                      | _ => ill
                      end) l = Ok smiles ->
       vbp_new nan smiles c base fwd divs da = Panic m ->
       exists d, In (val_of_ddf d) (pieces (VVec l)) /\
         (year_fraction c base d = Panic m \/
          exists f lx rx ps k y, linear_at nan fwd (ddf_date d) = Ok f /\ In (VStruct [("smile", val_of_points VNum lx rx ps)]) (pieces (VVec l)) /\
            In (k, y) ps /\ interp_ord k f = false)).
  Proof.
    intros F. split.
    - apply comes_mapM. rewrite Forall_forall in *. intros u I. pose proof (F u I) as C.
      apply is_pair in C as (d & m & -> & Cd & Cm). apply made_ddf in Cd as (d' & -> & Sd). rewrite back_ddf. cbn [bind].
      eapply comes_bind; [eapply comes_weaken; [| | |exact (comes_smile m Cm)]|].
      + intros a H. exact H.
      + intros e [].
      + intros H. left. destruct H as (x & y & ps & M & L). exists x, y, ps. split; [|exact L].
        refine (pieces_trans _ _ _ (item_piece _ _ I) _). refine (pieces_trans _ m _ (member_piece _ _ _) M). right. left. reflexivity.
      + intros a Sa. split; assumption.
    - intros smiles fwd divs da m S E P. destruct (vbp_panics _ _ _ _ _ _ _ S P) as (s & I & Y).
      exists (fst s). clear P S.
      enough (Q : In (val_of_ddf (fst s)) (pieces (VVec l)) /\ exists sm, In sm (pieces (VVec l)) /\ smile_of_val sm = Ok (snd s) /\ conforms sm ty_spline_smile).
      { destruct Q as (Q & sm & Ism & Esm & Csm). split; [exact Q|]. destruct Y as [Y|(f & sp & [k y] & Ef & Es & Ip & O)]; [left; exact Y|right].
        destruct (smile_points sm sp Csm (eq_trans Esm (f_equal _ Es))) as (lx & rx & ->).
        exists f, lx, rx, (sp_points sp), k, y. auto. }
      clear Y. revert smiles E I. induction F as [|u l C F IH]; cbn [mapM]; intros smiles E I; [injection E as <-; destruct I|].
      apply is_pair in C as (d & sm & -> & Cd & Cm). apply made_ddf in Cd as (d' & -> & Sd). rewrite back_ddf in E. cbn [bind] in E.
      destruct (smile_of_val sm) as [m'|e|e] eqn:Em; [|discriminate..]. cbn [bind] in E.
      destruct (mapM _ l) as [ss|e|e] eqn:EM in E; [|discriminate..]. cbn [bind] in E. injection E as <-.
      destruct I as [<-|I].
      + cbn [fst snd]. split; [eapply pieces_trans; [apply item_piece; left; reflexivity | apply member_piece; left; reflexivity]|].
        exists sm. split; [|split; [exact Em|exact Cm]]. eapply pieces_trans; [apply item_piece; left; reflexivity | apply member_piece; right; left; reflexivity].
      + destruct (IH ss EM I) as (Q & sm' & Q1 & Q2). split; [exact (piece_tail _ _ _ Q ltac:(now destruct (fst s)))|].
        exists sm'. split; [|exact Q2]. refine (piece_tail _ _ _ Q1 _). destruct Q2 as [Q2 _]. now intros ->.
  Qed.

  Lemma vol_flat tr id x c d : vol_of_val nan (VTagged tr id (VStruct [("vol", VNum x); ("calendar", val_of_calendar c);
      ("base_date", val_of_ddf d)])) = Ok (FlatVolSurface x c d).
  Proof. cbn [vol_of_val]. rewrite back_calendar, back_ddf. destruct (calendar_tagged c) as (o & u & ->). reflexivity. Qed.

  Lemma vol_probability tr id l c d f g a : vol_of_val nan (VTagged tr id (VStruct [("smiles", VVec l);
      ("calendar", val_of_calendar c); ("base_date", val_of_ddf d); ("forward", val_of_linear f);
      ("fixed_divs_after", val_of_linear g); ("div_assumptions", VUnit (assumptions_name a))])) =
    let* smiles := mapM (fun p => match p with
                                  | VTuple [d; m] => let* d' := ddf_of_val d in let* m' := smile_of_val m in Ok (d', m')
                                  | _ => ill
                                  end) l in
    let* p := vbp_new nan smiles c d f g a in Ok (VolByProbability p).
  Proof.
    assert (A : assumptions_of_name (assumptions_name a) = Ok a) by (destruct a; reflexivity).
    cbn [vol_of_val]. rewrite back_calendar, back_ddf, !back_linear, A. destruct (calendar_tagged c) as (o & u & ->). reflexivity.
  Qed.

  Lemma vol_is_tagged v : conforms v (TTagged TrVolSurface) -> exists id u, v = VTagged TrVolSurface id u.
  Proof. intros H. apply is_tagged in H as (id & tag & t & u & -> & _). eauto. Qed.

  Lemma same_tag tag id : read_type_id TrVolSurface tag = Some tag -> id = Some tag \/ id = read_type_id TrVolSurface tag -> id = Some tag.
  Proof. intros E [-> | ->]; [reflexivity | exact E]. Qed.

  Lemma comes_vol_size n : forall v, (vsize v < n)%nat -> conforms v (TTagged TrVolSurface) -> comes_vol v.
  Proof.
    induction n as [|n IH]; [lia|]. intros v L H.
    assert (Sub : forall id fs w, In ("base_vol", w) fs -> (vsize (VTagged TrVolSurface id (VStruct fs)) < S n)%nat ->
      conforms w (TTagged TrVolSurface) ->
      comes (storable_vol finite nan) (rejected nan) (bad (VTagged TrVolSurface id (VStruct fs))) (vol_of_val nan w)).
    { intros id fs w I LS C. eapply comes_weaken; [| | |apply (IH w)]; [intros a A; exact A | intros e A; exact A | | |exact C].
      - apply bad_piece. apply tagged_piece, (field_piece "base_vol"), I.
      - apply vsize_field in I. cbn [vsize] in LS. lia. }
    apply is_tagged in H as (id & tag & t & u & -> & Id & G & H). unfold comes_vol.
    cbn [get registry vol_types] in G.
    destruct (String.eqb_spec tag "FlatVolSurface") as [->|_]; [injection G as <-|].
    { apply is_struct in H as (fs & -> & H). apply is_field in H as (x & fs1 & -> & Cx & H).
      apply is_field in H as (c & fs2 & -> & Cc & H). apply is_field in H as (d & fs3 & -> & Cd & H). apply is_end in H as ->.
      apply is_num in Cx as (y & -> & Fy). apply made_calendar in Cc as (cal & -> & Sc). apply made_ddf in Cd as (b & -> & Sb).
      rewrite vol_flat. cbn [comes storable_vol]. auto. }
    destruct (String.eqb_spec tag "VolByProbabilityCubicSplineSmile") as [->|_]; [injection G as <-|].
    { unfold ty_vol_input in H. apply is_struct in H as (fs & -> & H). apply is_field in H as (l & fs1 & -> & Cl & H).
      apply is_field in H as (c & fs2 & -> & Cc & H). apply is_field in H as (d & fs3 & -> & Cd & H).
      apply is_field in H as (f & fs4 & -> & Cf & H). apply is_field in H as (g & fs5 & -> & Cg & H).
      apply is_field in H as (a & fs6 & -> & Ca & H). apply is_end in H as ->.
      apply is_vec in Cl as (ps & -> & Cl). apply made_calendar in Cc as (cal & -> & Sc). apply made_ddf in Cd as (b & -> & Sb).
      apply made_linear in Cf as (fwd & -> & Sf). apply made_linear in Cg as (divs & -> & Sg).
      apply made_assumptions in Ca as (da & ->). rewrite vol_probability.
      destruct (comes_pillars ps cal b Cl) as [C P].
      match goal with |- comes _ _ (bad ?w) _ => assert (BP : bad (VVec ps) -> bad w) end.
      { apply bad_piece. apply tagged_piece, (field_piece "smiles"). left. reflexivity. }
      destruct (mapM _ ps) as [smiles|e|e] eqn:M in C |- *; cbn [bind comes] in C |- *; [|exact C | exact (BP C)].
      destruct (vbp_new nan smiles cal b fwd divs da) as [p|e|e] eqn:E; cbn [bind comes].
      - cbn [storable_vol]. destruct (vbp_same _ _ _ _ _ _ _ E) as (-> & -> & -> & -> & -> & ->).
        repeat (split; [assumption|]). exact E.
      - exists smiles, cal, b, fwd, divs, da. exact E.
      - assert (Sm : Forall (fun s => storable_spline finite (snd s)) smiles) by (eapply Forall_impl; [|exact C]; cbn; tauto).
        destruct (P smiles fwd divs da e Sm M E) as (d & I & [Y|(f & lx & rx & pts & k & y & Ef & Is & Ip & O)]); right;
          [left; exists cal, b, d, e; split; [|split; [|split; [|exact Y]]]
          |right; exists fwd, d, f, lx, rx, pts, k, y; cbn [interp_ord interpolable_num] in O; apply orb_false_iff in O as [O O3]; apply orb_false_iff in O as [O1 O2];
           split; [|split; [|split; [|auto 6]]]].
        + apply tagged_piece, (field_piece "calendar"). right. left. reflexivity.
        + apply tagged_piece, (field_piece "base_date"). right. right. left. reflexivity.
        + eapply pieces_trans; [|exact I]. apply tagged_piece, (field_piece "smiles"). left. reflexivity.
        + apply tagged_piece, (field_piece "forward"). do 3 right. left. reflexivity.
        + eapply pieces_trans; [|exact I]. apply tagged_piece, (field_piece "smiles"). left. reflexivity.
        + eapply pieces_trans; [|exact Is]. apply tagged_piece, (field_piece "smiles"). left. reflexivity. }
    destruct (String.eqb_spec tag "ConstantExpiryTimeEvolution") as [->|_]; [injection G as <-|].
    { apply same_tag in Id; [subst id|reflexivity]. unfold ty_time_evolution in H.
      apply is_struct in H as (fs & -> & H). apply is_field in H as (w & fs1 & -> & Cw & H).
      apply is_field in H as (x & fs2 & -> & Cx & H). apply is_field in H as (d & fs3 & -> & Cd & H). apply is_end in H as ->.
      apply is_num in Cx as (y & -> & Fy). apply made_ddf in Cd as (b & -> & Sb).
      pose proof (Sub (Some "ConstantExpiryTimeEvolution") _ w (in_eq _ _) L Cw) as C.
      destruct (vol_is_tagged w Cw) as (o & u & ->). rewrite vol_constant. eapply comes_bind; [exact C|].
      intros v Sv. cbn [comes storable_vol]. destruct b. auto. }
    destruct (String.eqb_spec tag "RollingExpiryTimeEvolution") as [->|_]; [injection G as <-|].
    { apply same_tag in Id; [subst id|reflexivity]. unfold ty_time_evolution in H.
      apply is_struct in H as (fs & -> & H). apply is_field in H as (w & fs1 & -> & Cw & H).
      apply is_field in H as (x & fs2 & -> & Cx & H). apply is_field in H as (d & fs3 & -> & Cd & H). apply is_end in H as ->.
      apply is_num in Cx as (y & -> & Fy). apply made_ddf in Cd as (b & -> & Sb).
      pose proof (Sub (Some "RollingExpiryTimeEvolution") _ w (in_eq _ _) L Cw) as C.
      destruct (vol_is_tagged w Cw) as (o & u & ->). rewrite vol_rolling. eapply comes_bind; [exact C|].
      intros v Sv. cbn [comes storable_vol]. destruct b. auto. }
    destruct (String.eqb_spec tag "ParallelBumpVol") as [->|_]; [injection G as <-|].
    { apply same_tag in Id; [subst id|reflexivity].
      apply is_struct in H as (fs & -> & H). apply is_field in H as (w & fs1 & -> & Cw & H).
      apply is_field in H as (x & fs2 & -> & Cx & H). apply is_end in H as ->. apply is_num in Cx as (y & -> & Fy).
      pose proof (Sub (Some "ParallelBumpVol") _ w (in_eq _ _) L Cw) as C.
      destruct (vol_is_tagged w Cw) as (o & u & ->). rewrite vol_parallel. eapply comes_bind; [exact C|].
      intros v Sv. split; assumption. }
    destruct (String.eqb_spec tag "TimeScaledBumpVol") as [->|_]; [injection G as <-|discriminate G].
    apply same_tag in Id; [subst id|reflexivity].
    apply is_struct in H as (fs & -> & H). apply is_field in H as (w & fs1 & -> & Cw & H).
    apply is_field in H as (x & fs2 & -> & Cx & H). apply is_field in H as (d & fs3 & -> & Cd & H). apply is_end in H as ->.
    apply is_num in Cx as (y & -> & Fy). apply is_num in Cd as (z & -> & Fz).
    pose proof (Sub (Some "TimeScaledBumpVol") _ w (in_eq _ _) L Cw) as C.
    destruct (vol_is_tagged w Cw) as (o & u & ->). rewrite vol_scaled. eapply comes_bind; [exact C|].
    intros v Sv. cbn [comes storable_vol]. auto.
  Qed.
  Lemma comes_vol_all v : conforms v (TTagged TrVolSurface) -> comes_vol v.
  Proof. apply (comes_vol_size (S (vsize v))). lia. Qed.

  Lemma comes_entries {A} (g : val T -> res A) (P : A -> Prop) E B (m : list (string * val T)) :
    (forall n u, In (n, u) m -> comes P E B (g u)) ->
    comes (fun m' => keys m' = keys m /\ Forall (fun e => P (snd e)) m') E B
      (mapM (fun e => match e with (n, u) => let* a := g u in Ok (n, a) end) m).
  Proof.
    induction m as [|[n u] m IH]; cbn [mapM]; intros Sub; [split; [reflexivity | constructor]|].
    assert (C := Sub n u (or_introl eq_refl)). destruct (g u) as [a|e|e]; cbn [bind comes] in *; [|exact C | exact C].
    eapply comes_bind; [apply IH; intros n1 u1 I; apply (Sub n1); right; exact I|].
    intros m' [K Q]. split; [|constructor; assumption]. unfold keys in *. cbn [map fst]. rewrite K. reflexivity.
  Qed.

  Lemma comes_map {A} (g : val T -> res A) (P : A -> Prop) t v : conforms v (TMap t) ->
    (forall u, conforms u t -> comes P (rejected nan) (bad u) (g u)) ->
    comes (storable_map P) (rejected nan) (bad v) (map_of_val g v).
  Proof.
    intros H F. apply is_map in H as (m & -> & ND & H).
    assert (C := comes_entries g P (rejected nan) (bad (VMap m)) m). unfold map_of_val.
    eapply comes_weaken; [| | |apply C]; auto.
    - intros m' [K Q]. split; [rewrite K; exact ND | exact Q].
    - intros n u I. rewrite Forall_forall in H. eapply comes_weaken; [| | |exact (F u (H _ I))]; auto.
      apply bad_piece, (entry_piece n), I.
  Qed.

  Lemma comes_market v : conforms v ty_market_data -> comes (storable_market finite nan) (rejected nan) (bad v) (market_of_val nan v).
  Proof.
    intros H. unfold ty_market_data in H. apply is_struct in H as (fs & -> & H).
    apply is_field in H as (d & fs1 & -> & Cd & H). apply is_field in H as (s & fs2 & -> & Cs & H).
    apply is_field in H as (y & fs3 & -> & Cy & H). apply is_field in H as (b & fs4 & -> & Cb & H).
    apply is_field in H as (ds & fs5 & -> & Cds & H). apply is_field in H as (vs & fs6 & -> & Cvs & H). apply is_end in H as ->.
    apply is_date in Cd as (d' & -> & Pd). cbn [market_of_val].
    match goal with |- comes _ _ (bad ?w) _ => set (whole := w) end.
    assert (Pure : forall A (g : val T -> res A) (f : A -> val T) P t u, (forall a, g (f a) = Ok a) ->
      (forall u, conforms u t -> made f P u) -> conforms u (TMap t) -> comes (storable_map P) (rejected nan) (bad whole) (map_of_val g u)).
    { intros A g f P t u GB M C. apply (made_map finite f P t u M) in C as (m & -> & S). rewrite (back_map f g m) by auto. exact S. }
    eapply comes_bind; [exact (Pure _ num_of_val VNum _ _ s num_back (made_num finite) Cs)|]. intros spots S1.
    eapply comes_bind; [exact (Pure _ curve_of_val val_of_curve _ _ y back_curve (made_curve finite) Cy)|]. intros ys S2.
    eapply comes_bind; [exact (Pure _ curve_of_val val_of_curve _ _ b back_curve (made_curve finite) Cb)|]. intros bs S3.
    eapply comes_bind; [exact (Pure _ stream_of_val val_of_stream _ _ ds back_stream (made_stream finite) Cds)|]. intros dv S4.
    eapply comes_bind.
    - eapply comes_weaken; [intros a H; exact H | intros e H; exact H | |exact (comes_map (vol_of_val nan) _ _ vs Cvs comes_vol_all)].
      apply bad_piece, (field_piece "vol_surfaces"). do 5 right. left. reflexivity.
    - intros vols S5. cbn [comes storable_market md_spot_date md_spots md_yields md_borrows md_divs md_vols]. unfold storable_market. cbn. auto 10.
  Qed.
End Market.
