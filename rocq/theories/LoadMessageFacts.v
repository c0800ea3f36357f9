(** Lemmas about the texts of the errors of loads. *)
From Coq Require Import NArith Lia String List Bool.
From Coq.Strings Require Import Byte.
From Verif Require Import Base BaseFacts Metadata Tables Runtime Loader Texts LoadMessages SpecRuntime SpecBody SpecLoader SpecHistory SpecLoadMessages
  RuntimeInv HistoryProofs BodyProofs LoaderFacts LoaderRun LoadRun MemberFacts PropsLoader.
Import ListNotations.
Open Scope N_scope.

Lemma string_none md h : string_at md h = None <-> forall n, ~ heap_text md h n.
Proof.
  split.
  - intros E n H. apply string_at_text in H. congruence.
  - intro H. destruct (string_at md h) as [n|] eqn:E; [|reflexivity]. destruct (H n). now apply string_at_inv.
Qed.
Lemma get_type_some p s n t : consistent p s -> (get_type n s = Ok (Some t) s <-> latest (c_types s) n t).
Proof.
  intro W. split.
  - exact (get_type_latest _ _ _ _ _ W).
  - exact (latest_get _ _ _ _ W).
Qed.
Lemma get_type_none p s n : consistent p s -> (get_type n s = Ok None s <-> unnamed (c_types s) n).
Proof.
  intro W. unfold get_type. pose proof (map_ok _ _ W n) as M. split.
  - intro E. injection E as E. rewrite E in M. exact M.
  - intro U. destruct (map_get bytes_eqb n (c_type_map s)) as [t|]; [|reflexivity]. destruct M as [(ti & E & N) _].
    destruct (U ti); [eapply nth_error_In; eauto|exact N].
Qed.
Lemma latest_excludes ts n t : latest ts n t -> ~ unnamed ts n.
Proof. intros [(ti & E & N) _] U. apply (U ti); [eapply nth_error_In; eauto|exact N]. Qed.

(** Methods by name. *)
Lemma get_method_spec p fs paths s t ti mn : history p fs paths s -> nth_error (c_types s) t = Some ti ->
  exists o, get_method t mn s = Ok o s /\ match o with Some _ => has_method s t mn | None => ~ has_method s t mn end.
Proof.
  intros H E. exists (map_get bytes_eqb mn (ti_method_map ti)). split; [unfold get_method, the_type, bind; now rewrite E|].
  pose proof (kn_method _ _ (history_knows _ _ _ _ H _ _ E) mn) as K. destruct (map_get bytes_eqb mn (ti_method_map ti)) as [m|].
  - destruct K as (l1 & l2 & El & N & _). exists ti, m. split; [exact E|]. split; [rewrite El; apply in_elt|exact N].
  - intros (ti' & m & E' & I & N). rewrite E in E'. injection E' as <-. exact (K m I N).
Qed.

Section Rows.
  Variables (p : profile) (fs : file_system) (paths : list name) (md : metadata) (n : name) (s : vm).
  Hypothesis H : history p fs paths s.
  Hypothesis L : len (tb_type_ref (m_tables md)) < 2 ^ 64.
  Let W : consistent p s := proj1 (history_ok _ _ _ _ H).

  (** What the text of the methods says. *)
  Inductive member_lacks : list member_ref_row -> name -> Prop :=
  | ml_parent before row after fn : (forall q, In q before -> member_there md s q) ->
      of_type_ref row = true -> parent_of md row fn -> unnamed (c_types s) fn ->
      member_lacks (before ++ row :: after) (bytes_of_string "Cannot find type " ++ fn ++ bytes_of_string " referenced by " ++ n)
  | ml_name before row after fn t : (forall q, In q before -> member_there md s q) ->
      of_type_ref row = true -> parent_of md row fn -> latest (c_types s) fn t -> (forall mn, ~ heap_text md (mr_name row) mn) ->
      member_lacks (before ++ row :: after) (bytes_of_string "Unable to load methods referenced by " ++ n)
  | ml_method before row after fn t mn : (forall q, In q before -> member_there md s q) ->
      of_type_ref row = true -> parent_of md row fn -> latest (c_types s) fn t -> heap_text md (mr_name row) mn -> ~ has_method s t mn ->
      member_lacks (before ++ row :: after)
        (bytes_of_string "Unable to find " ++ fn ++ bytes_of_string "." ++ mn ++ bytes_of_string " referenced by " ++ n).
  Inductive type_lacks : list type_ref_row -> name -> Prop :=
  | tl_type before row after tn ns : (forall q, In q before -> type_there md s q) ->
      heap_text md (tr_name row) tn -> heap_text md (tr_namespace row) ns -> unnamed (c_types s) (qualified tn ns) ->
      type_lacks (before ++ row :: after) (bytes_of_string "Cannot find type " ++ qualified tn ns ++ bytes_of_string " referenced by " ++ n).

  Lemma member_lacks_cons q rows t : member_there md s q -> member_lacks rows t -> member_lacks (q :: rows) t.
  Proof.
    intros Q X. inversion X; subst; [eapply (ml_parent (q :: before))|eapply (ml_name (q :: before))|eapply (ml_method (q :: before))]; eauto;
      intros x [<-|I]; auto.
  Qed.
  Lemma type_lacks_cons q rows t : type_there md s q -> type_lacks rows t -> type_lacks (q :: rows) t.
  Proof. intros Q X. inversion X; subst. eapply (tl_type (q :: before)); eauto. intros x [<-|I]; auto. Qed.

  Lemma type_text_of fn t : latest (c_types s) fn t -> type_text t s = Ok fn s.
  Proof. intros [(ti & E & N) _]. unfold type_text, the_type, bind. rewrite E. unfold ret. now rewrite N. Qed.
  Lemma full_name_fwd x y tn ns : heap_text md x tn -> heap_text md y ns -> full_name_at md x y s = Ok (qualified tn ns) s.
  Proof. intros A B. unfold full_name_at, bind. now rewrite (text_at _ _ _ s A), (text_at _ _ _ s B). Qed.

  (** One row, when its parent can be named. *)
  Lemma member_row row rows fn : of_type_ref row = true -> parent_of md row fn ->
    method_refs_text p md n (row :: rows) s =
      match get_type fn s with
      | Ok None _ => Ok (Some (bytes_of_string "Cannot find type " ++ fn ++ bytes_of_string " referenced by " ++ n)) s
      | Ok (Some t) _ =>
          match string_at md (mr_name row) with
          | None => Ok (Some (bytes_of_string "Unable to load methods referenced by " ++ n)) s
          | Some mn =>
              match get_method t mn s with
              | Ok None _ => Ok (Some (bytes_of_string "Unable to find " ++ fn ++ bytes_of_string "." ++ mn ++ bytes_of_string " referenced by " ++ n)) s
              | _ => method_refs_text p md n rows s
              end
          end
      | _ => method_refs_text p md n (row :: rows) s
      end.
  Proof.
    intros T (tr & a & b & R & A & B & ->). cbn [method_refs_text]. unfold of_type_ref in T.
    destruct (ref_table (mr_parent row)); try discriminate. unfold bind at 1. rewrite (row_of_at p _ _ _ s R).
    unfold bind at 1. rewrite (full_name_fwd _ _ _ _ A B). unfold bind at 1.
    pose proof (get_type_latest p s (qualified a b)) as G. unfold get_type in *. destruct (map_get bytes_eqb (qualified a b) (c_type_map s)) as [t|]; [|reflexivity].
    specialize (G t s W eq_refl). destruct (string_at md (mr_name row)) as [mn|]; [|reflexivity].
    destruct G as [(ti & E & N) Y]. destruct (get_method_spec _ _ _ _ _ _ mn H E) as (o & G & _).
    unfold bind at 1. rewrite G. destruct o as [m|]; [reflexivity|]. unfold bind. rewrite (type_text_of (qualified a b)); [reflexivity|].
    split; eauto.
  Qed.
  Lemma member_skip row rows : of_type_ref row = false -> method_refs_text p md n (row :: rows) s = method_refs_text p md n rows s.
  Proof. unfold of_type_ref. intro T. cbn [method_refs_text]. destruct (ref_table (mr_parent row)); try discriminate; reflexivity. Qed.
  Lemma member_parent row rows o s' : of_type_ref row = true -> method_refs_text p md n (row :: rows) s = Ok o s' ->
    exists fn, parent_of md row fn.
  Proof.
    unfold of_type_ref. cbn [method_refs_text]. destruct (ref_table (mr_parent row)); try discriminate. intros _ E.
    apply bind_inv_ok in E as (tr & s1 & E1 & E). apply row_at_inv in E1 as [-> R]; [|exact L].
    apply bind_inv_ok in E as (fn & s1 & E2 & E). apply full_name_at_run in E2 as [-> (a & b & A & B & ->)].
    exists (qualified a b), tr, a, b. auto.
  Qed.

  Lemma methods_sound : forall rows o s', method_refs_text p md n rows s = Ok o s' -> s' = s /\
    match o with Some t => member_lacks rows t | None => forall q, In q rows -> member_there md s q end.
  Proof.
    induction rows as [|row rows IH]; intros o s' E.
    - injection E as <- <-. split; [reflexivity|]. intros q [].
    - destruct (of_type_ref row) eqn:T.
      + destruct (member_parent _ _ _ _ T E) as [fn P]. rewrite (member_row _ _ _ T P) in E.
        pose proof (get_type_some p s fn) as GS. pose proof (get_type_none p s fn W) as GN.
        assert (exists x, get_type fn s = Ok x s) as [[t|] X] by (unfold get_type; eauto); rewrite X in E.
        * apply (GS t W) in X. destruct (string_at md (mr_name row)) as [mn|] eqn:S.
          -- apply string_at_inv in S. pose proof X as [(ti & Et & _) _]. destruct (get_method_spec _ _ _ _ _ _ mn H Et) as ([m|] & G & Q);
               rewrite G in E.
             ++ destruct (IH _ _ E) as [-> F]. split; [reflexivity|]. assert (MT : member_there md s row) by (intros _; eauto 8).
                destruct o as [x|]; [now apply member_lacks_cons|]. intros q [<-|I]; auto.
             ++ injection E as <- <-. split; [reflexivity|]. eapply (ml_method []); eauto. intros q [].
          -- injection E as <- <-. split; [reflexivity|]. eapply (ml_name []); eauto; [intros q []|]. now apply string_none.
        * apply GN in X. injection E as <- <-. split; [reflexivity|]. eapply (ml_parent []); eauto. intros q [].
      + rewrite (member_skip _ _ T) in E. destruct (IH _ _ E) as [-> F]. split; [reflexivity|].
        assert (MT : member_there md s row) by (intro; congruence).
        destruct o as [x|]; [now apply member_lacks_cons|]. intros q [<-|I]; auto.
  Qed.
  Lemma methods_past before : forall rows, (forall q, In q before -> member_there md s q) ->
    method_refs_text p md n (before ++ rows) s = method_refs_text p md n rows s.
  Proof.
    induction before as [|row before IH]; intros rows F; [reflexivity|]. cbn [List.app].
    rewrite <- (IH rows) by (intros; apply F; now right). destruct (of_type_ref row) eqn:T; [|now apply member_skip].
    destruct (F row (or_introl eq_refl) T) as (fn & t & mn & P & La & Hm & M). rewrite (member_row _ _ _ T P).
    rewrite (proj2 (get_type_some p s fn t W) La), (string_at_text _ _ _ Hm). pose proof La as [(ti & Et & _) _].
    destruct (get_method_spec _ _ _ _ _ _ mn H Et) as ([m|] & -> & Q); [reflexivity|contradiction].
  Qed.
  Lemma methods_complete rows t : member_lacks rows t -> method_refs_text p md n rows s = Ok (Some t) s.
  Proof.
    intro X. inversion X as [before row after fn F T P U|before row after fn u F T P La N|before row after fn u mn F T P La Hm N]; subst;
      rewrite (methods_past before) by exact F; rewrite (member_row _ _ _ T P).
    - now rewrite (proj2 (get_type_none p s fn W) U).
    - now rewrite (proj2 (get_type_some p s fn u W) La), (proj2 (string_none _ _) N).
    - rewrite (proj2 (get_type_some p s fn u W) La), (string_at_text _ _ _ Hm). pose proof La as [(ti & Et & _) _].
      destruct (get_method_spec _ _ _ _ _ _ mn H Et) as ([m|] & -> & Q); [contradiction|reflexivity].
  Qed.
  Lemma methods_there rows : (forall q, In q rows -> member_there md s q) -> method_refs_text p md n rows s = Ok None s.
  Proof. intro F. rewrite <- (app_nil_r rows). now rewrite (methods_past rows) by exact F. Qed.

  Lemma type_row row rows tn ns : heap_text md (tr_name row) tn -> heap_text md (tr_namespace row) ns ->
    type_refs_text md n (row :: rows) s =
      match get_type (qualified tn ns) s with
      | Ok None _ => Ok (Some (bytes_of_string "Cannot find type " ++ qualified tn ns ++ bytes_of_string " referenced by " ++ n)) s
      | _ => type_refs_text md n rows s
      end.
  Proof.
    intros A B. cbn [type_refs_text]. unfold bind at 1. rewrite (full_name_fwd _ _ _ _ A B). unfold bind, get_type.
    destruct (map_get bytes_eqb (qualified tn ns) (c_type_map s)); reflexivity.
  Qed.
  Lemma types_sound : forall rows o s', type_refs_text md n rows s = Ok o s' -> s' = s /\
    match o with Some t => type_lacks rows t | None => forall q, In q rows -> type_there md s q end.
  Proof.
    induction rows as [|row rows IH]; intros o s' E.
    - injection E as <- <-. split; [reflexivity|]. intros q [].
    - pose proof E as E0. cbn [type_refs_text] in E0. apply bind_inv_ok in E0 as (fn & s1 & E2 & _).
      apply full_name_at_run in E2 as [-> (tn & ns & A & B & ->)]. rewrite (type_row _ _ _ _ A B) in E.
      pose proof (get_type_some p s (qualified tn ns)) as GS. pose proof (get_type_none p s (qualified tn ns) W) as GN.
      assert (exists x, get_type (qualified tn ns) s = Ok x s) as [[t|] X] by (unfold get_type; eauto); rewrite X in E.
      + apply (GS t W) in X. destruct (IH _ _ E) as [-> F]. split; [reflexivity|].
        assert (TT : type_there md s row) by (exists tn, ns, t; auto). destruct o; [now apply type_lacks_cons|]. intros q [<-|I]; auto.
      + apply GN in X. injection E as <- <-. split; [reflexivity|]. eapply (tl_type []); eauto. intros q [].
  Qed.
  Lemma types_past before : forall rows, (forall q, In q before -> type_there md s q) ->
    type_refs_text md n (before ++ rows) s = type_refs_text md n rows s.
  Proof.
    induction before as [|row before IH]; intros rows F; [reflexivity|]. cbn [List.app].
    rewrite <- (IH rows) by (intros; apply F; now right). destruct (F row (or_introl eq_refl)) as (tn & ns & t & A & B & La).
    rewrite (type_row _ _ _ _ A B). now rewrite (proj2 (get_type_some p s _ t W) La).
  Qed.
  Lemma types_complete rows t : type_lacks rows t -> type_refs_text md n rows s = Ok (Some t) s.
  Proof.
    intro X. inversion X as [before row after tn ns F A B U]; subst. rewrite (types_past before) by exact F.
    rewrite (type_row _ _ _ _ A B). now rewrite (proj2 (get_type_none p s _ W) U).
  Qed.
End Rows.

(** ** References and whole loads *)

Lemma history_load p fs paths f rn s a s1 : history p fs paths s -> load_assembly f p fs rn s = Ok a s1 -> history p fs paths s1.
Proof.
  intros (fuel & rt & con & s0 & H & L) E. exists fuel, rt, con, s0. split; [exact H|]. eapply later_then; [exact L|].
  eapply ev_load_name; exact E.
Qed.
Lemma obtained_history p fs paths f md rows s s1 : obtained p fs f md rows s s1 -> history p fs paths s -> history p fs paths s1.
Proof. induction 1; intro H'; auto. apply IHobtained. eapply history_load; eauto. Qed.
Lemma loaded_iff s n : loaded (c_arena s) (c_assemblies s) n = true <-> loaded_as s n.
Proof. apply loaded_spec. Qed.
Lemma loaded_not s n : loaded (c_arena s) (c_assemblies s) n = false <-> ~ loaded_as s n.
Proof. rewrite <- loaded_iff. destruct (loaded _ _ n); split; congruence. Qed.

(** The text of a load by name. *)
Lemma by_name_sound said fs rn s t s' : by_name_text said fs rn s = Ok (Some t) s' ->
  (t = bytes_of_string "Could not locate assembly with name " ++ rn /\ forall c, In c (candidates (c_paths s) rn) -> fs (fst c) (snd c) = Missing) \/
  exists c x, first_there (fun c => fs (fst c) (snd c) <> Missing) (candidates (c_paths s) rn) c /\ fs (fst c) (snd c) = File x /\ said x s = Ok (Some t) s'.
Proof.
  unfold by_name_text, bind, get_state. pose proof (resolve_name_spec fs rn (c_paths s)) as R.
  destruct (resolve_assembly_name fs (c_paths s) rn) as [c|].
  - destruct (fs (fst c) (snd c)) as [| |x] eqn:F; try discriminate. intro E. right. exists c, x. auto.
  - intro E. left. unfold ret in E. assert (T : Some (bytes_of_string "Could not locate assembly with name " ++ rn) = Some t) by congruence.
    split; [congruence|exact R].
Qed.
Lemma by_name_missing said fs rn s : (forall c, In c (candidates (c_paths s) rn) -> fs (fst c) (snd c) = Missing) ->
  by_name_text said fs rn s = Ok (Some (bytes_of_string "Could not locate assembly with name " ++ rn)) s.
Proof.
  intro F. unfold by_name_text, bind, get_state. pose proof (resolve_name_spec fs rn (c_paths s)) as R.
  destruct (resolve_assembly_name fs (c_paths s) rn) as [c|]; [|reflexivity].
  destruct R as (a & b & E & T & _). destruct T. apply F. rewrite E. apply in_elt.
Qed.
Lemma by_name_file said fs rn s c x : first_there (fun c => fs (fst c) (snd c) <> Missing) (candidates (c_paths s) rn) c ->
  fs (fst c) (snd c) = File x -> by_name_text said fs rn s = said x s.
Proof.
  intros F X. unfold by_name_text, bind, get_state. pose proof (resolve_name_spec fs rn (c_paths s)) as R.
  destruct (resolve_assembly_name fs (c_paths s) rn) as [c'|].
  - rewrite (first_unique _ _ _ _ R F), X. reflexivity.
  - destruct F as (a & b & E & T & _). destruct T. apply R. rewrite E. apply in_elt.
Qed.
Lemma load_by_name fuel p fs rn s : load_assembly fuel p fs rn s =
  match resolve_assembly_name fs (c_paths s) rn with
  | None => Err "Could not locate assembly" s
  | Some c => match fs (fst c) (snd c) with File x => load_data fuel p fs x s | _ => Err "cannot read file" s end
  end.
Proof.
  unfold load_assembly, bind, get_state. destruct (resolve_assembly_name fs (c_paths s) rn) as [c|]; [|reflexivity].
  unfold load_path, ok_or, ret. destruct (fs (fst c) (snd c)); reflexivity.
Qed.
Lemma load_name_missing fuel p fs rn s : (forall c, In c (candidates (c_paths s) rn) -> fs (fst c) (snd c) = Missing) ->
  load_assembly fuel p fs rn s = Err "Could not locate assembly" s.
Proof.
  intro F. rewrite load_by_name. pose proof (resolve_name_spec fs rn (c_paths s)) as R.
  destruct (resolve_assembly_name fs (c_paths s) rn) as [c|]; [|reflexivity].
  destruct R as (a & b & E & T & _). destruct T. apply F. rewrite E. apply in_elt.
Qed.
Lemma load_name_file fuel p fs rn s c x : first_there (fun c => fs (fst c) (snd c) <> Missing) (candidates (c_paths s) rn) c ->
  fs (fst c) (snd c) = File x -> load_assembly fuel p fs rn s = load_data fuel p fs x s.
Proof.
  intros F X. rewrite load_by_name. pose proof (resolve_name_spec fs rn (c_paths s)) as R.
  destruct (resolve_assembly_name fs (c_paths s) rn) as [c'|].
  - now rewrite (first_unique _ _ _ _ R F), X.
  - destruct F as (a & b & E & T & _). destruct T. apply R. rewrite E. apply in_elt.
Qed.

Lemma bind_same {S A B} (m m' : M S A) (k : A -> M S B) s : (forall s, m s = m' s) -> bind m k s = bind m' k s.
Proof. intro E. unfold bind. now rewrite E. Qed.
Lemma bind_same_k {S A B} (m : M S A) (k k' : A -> M S B) s : (forall a s, k a s = k' a s) -> bind m k s = bind m k' s.
Proof. intro E. unfold bind. destruct (m s); auto. Qed.
Lemma iter_same {S A} (f g : A -> M S unit) : (forall a s, f a s = g a s) -> forall l s, iter_m f l s = iter_m g l s.
Proof.
  intros E. induction l as [|a l IH]; intro s; [reflexivity|]. cbn [iter_m]. unfold bind. rewrite E. destruct (g a s); auto.
Qed.

(** The loop over the references of a load, with the loads by name written out. *)
Lemma load_step f p fs data md n s : image_of p data md n -> load_data (S f) p fs data s =
  (iter_m (fun r => rn <- ok_or (string_at md (ar_name r)) "invalid assembly references" ;;
     s <- get_state ;; if loaded (c_arena s) (c_assemblies s) rn then ret tt else load_assembly f p fs rn ;;; ret tt)
     (tb_assembly_ref (m_tables md)) ;;;
   method_refs <- load_method_refs p md (tb_member_ref (m_tables md)) ;;
   type_refs <- load_type_refs p md ;;
   a <- new_assembly (mkAssembly n [] None (m_user_strings md) [] method_refs [] type_refs) ;;
   drop_on_error a (load_contents f p md a)) s.
Proof.
  intros (E & row & R & T). cbn [load_data]. unfold bind at 1, lift. rewrite E.
  unfold bind at 1. change (handle_of_position TAssembly 0) with 1. rewrite (row_of_at p _ _ _ s R).
  unfold bind at 1. rewrite (text_at _ _ _ s T). apply bind_same. intro s'. apply iter_same. clear s s'. intros r s.
  apply bind_same_k. intros rn s'. unfold bind at 1, get_state. unfold bind at 3. destruct (loaded _ _ rn); [reflexivity|].
  unfold bind at 3. rewrite load_by_name. unfold bind at 1. destruct (resolve_assembly_name fs (c_paths s') rn) as [c|]; [|reflexivity].
  cbn [ok_or]. unfold ret at 1. destruct (fs (fst c) (snd c)); reflexivity.
Qed.
Lemma text_step f p fs data md n s : image_of p data md n -> load_text (S f) p fs data s =
  (t <- references_text (load_text f p fs) (load_assembly f p fs) fs md n (tb_assembly_ref (m_tables md)) ;;
   match t with
   | Some t => ret (Some t)
   | None =>
       t <- method_refs_text p md n (tb_member_ref (m_tables md)) ;;
       match t with Some t => ret (Some t) | None => type_refs_text md n (tb_type_ref (m_tables md)) end
   end) s.
Proof.
  intros (E & row & R & T). cbn [load_text]. unfold bind at 1, lift. rewrite E.
  unfold bind at 1. change (handle_of_position TAssembly 0) with 1. rewrite (row_of_at p _ _ _ s R).
  unfold bind at 1. rewrite (text_at _ _ _ s T). reflexivity.
Qed.
Lemma text_image f p fs data s o s' : load_text (S f) p fs data s = Ok o s' -> exists md n, image_of p data md n.
Proof.
  cbn [load_text]. intro E. apply bind_inv_ok in E as (md & s1 & E1 & E). unfold lift in E1.
  destruct (read_metadata p data tt) as [md' []|? ?|?|?|] eqn:Em; try discriminate. injection E1 as -> <-.
  apply bind_inv_ok in E as (row & s2 & E2 & E). change (handle_of_position TAssembly 0) with 1 in E2.
  apply bind_inv_ok in E as (n & s3 & E3 & _). apply string_run in E3 as [_ T]. exists md, n. split; [exact Em|]. exists row. split; [|exact T].
  split; [lia|]. unfold row_at, lift, table_index in E2. change (u_sub p 64 1 1) with (Some 0) in E2 || (destruct p; change (u_sub _ 64 1 1) with (Some 0) in E2).
  all: cbn beta iota in E2; destruct (nth_error (tb_assembly (m_tables md)) (N.to_nat 0)) as [x|] eqn:X; [|discriminate]; injection E2 as ->; exact X.
Qed.

(** ** The texts and the loads agree *)

(** The methods and types that are not found make the load fail. *)
Lemma row_same {A} p (rows : list A) k x (s s' : vm) : row_at p rows k s = Ok x s' -> s' = s.
Proof.
  unfold row_at, lift. destruct (table_index p rows k); try discriminate. intro E. congruence.
Qed.
Lemma methods_agree p md n s : forall rows o s' r, method_refs_text p md n rows s = Ok o s' -> load_method_refs p md rows s = r ->
  match o with
  | Some t => exists e, r = Err e s /\ fixed_part e t
  | None => exists ms, r = Ok ms s
  end.
Proof.
  induction rows as [|row rows IH]; intros x s' r E R; [injection E as <- <-; subst; exists []; reflexivity|].
  cbn [method_refs_text load_method_refs] in *. destruct (ref_table (mr_parent row)); try exact (IH _ _ _ E R).
  apply bind_inv_ok in E as (tr & s1 & E1 & E). unfold bind at 1 in R. rewrite E1 in R. assert (s1 = s) as -> by exact (row_same _ _ _ _ _ _ E1).
  apply bind_inv_ok in E as (fn & s1 & E2 & E). unfold bind at 1 in R. rewrite E2 in R. apply full_name_at_run in E2 as [-> _].
  unfold bind at 1 in E. unfold bind at 1 in R. unfold get_type in *. destruct (map_get bytes_eqb fn (c_type_map s)) as [u|].
  2:{ unfold ret in E. subst r. assert (x = Some (bytes_of_string "Cannot find type " ++ fn ++ bytes_of_string " referenced by " ++ n)) as -> by congruence.
      eexists. split; [reflexivity|]. apply part_type. }
  unfold bind at 1 in R. cbn [ok_or] in R. unfold ret at 1 in R. unfold bind at 1 in R. destruct (string_at md (mr_name row)) as [mn|].
  2:{ unfold ret in E. subst r. assert (x = Some (bytes_of_string "Unable to load methods referenced by " ++ n)) as -> by congruence.
      eexists. split; [reflexivity|]. apply part_name. }
  cbn [ok_or] in R. unfold ret at 1 in R. apply bind_inv_ok in E as (o & s1 & E3 & E). unfold bind at 1 in R. rewrite E3 in R.
  assert (s1 = s) as ->.
  { unfold get_method in E3. apply bind_inv_ok in E3 as (ti & s2 & E3 & E4). injection E4 as _ <-. unfold the_type in E3. destruct (nth_error _ _); [congruence|discriminate]. }
  unfold bind at 1 in R. destruct o as [m|].
  2:{ apply bind_inv_ok in E as (tn & ? & _ & E). subst r. unfold ret in E.
      assert (x = Some (bytes_of_string "Unable to find " ++ tn ++ bytes_of_string "." ++ mn ++ bytes_of_string " referenced by " ++ n)) as -> by congruence.
      eexists. split; [reflexivity|]. apply part_method. }
  cbn [ok_or] in R. unfold ret at 1 in R. unfold bind in R. pose proof (IH _ _ _ E eq_refl) as X. destruct x as [t|].
  - destruct X as (e & X & Y). rewrite X in R. subst r. eauto.
  - destruct X as [ms X]. rewrite X in R. subst r. eexists. reflexivity.
Qed.
Lemma types_fail md n s t s' : forall rows, type_refs_text md n rows s = Ok (Some t) s' ->
  exists e, map_m (fun tr =>
    fn <- full_name_at md (tr_name tr) (tr_namespace tr) ;;
    o <- get_type fn ;;
    ok_or o "Cannot find type") rows s = Err e s /\ fixed_part e t.
Proof.
  induction rows as [|row rows IH]; intro E; [discriminate|]. cbn [type_refs_text map_m] in *.
  apply bind_inv_ok in E as (fn & s1 & E2 & E). unfold bind at 1. unfold bind at 1. rewrite E2. apply full_name_at_run in E2 as [-> _].
  unfold bind at 1 in E. unfold bind at 1. unfold get_type at 1 in E. unfold get_type at 1. destruct (map_get bytes_eqb fn (c_type_map s)) as [u|].
  2:{ unfold ret in E. assert (t = bytes_of_string "Cannot find type " ++ fn ++ bytes_of_string " referenced by " ++ n) as -> by congruence.
      eexists. split; [reflexivity|]. apply part_type. }
  cbn [ok_or]. unfold ret at 1. destruct (IH E) as (e & X & Y). unfold bind at 1.
  rewrite X. eauto.
Qed.

(** The methods that are found when a load succeeds. *)
Lemma members_found p fs paths md s ms : history p fs paths s ->
  Forall2 (fun row m => exists fn t ti mn, parent_of md row fn /\ latest (c_types s) fn t /\ nth_error (c_types s) t = Some ti /\
    heap_text md (mr_name row) mn /\ map_get bytes_eqb mn (ti_method_map ti) = Some m) (filter of_type_ref (tb_member_ref (m_tables md))) ms ->
  forall q, In q (tb_member_ref (m_tables md)) -> member_there md s q.
Proof.
  intros H2 F2.
  intros q Iq Tq. assert (Iq' : In q (filter of_type_ref (tb_member_ref (m_tables md)))) by (apply filter_In; auto).
  apply In_nth_error in Iq' as [i Ei]. destruct (Forall2_nth_error_l _ _ _ _ _ F2 Ei) as (m & _ & fn & t & ti & mn & A & B & C & D & G).
  exists fn, t, mn. split; [exact A|]. split; [exact B|]. split; [exact D|].
  destruct (get_method_spec _ _ _ _ _ _ mn H2 C) as (o & X & Y). unfold get_method, the_type, bind in X. rewrite C in X. unfold ret in X.
  rewrite G in X. injection X as <-. exact Y.
Qed.

Section Agree.
  Variables (p : profile) (fs : file_system) (paths : list name).
  Definition one_reference (f : nat) (md : metadata) (r : assembly_ref_row) : M vm unit :=
    rn <- ok_or (string_at md (ar_name r)) "invalid assembly references" ;;
    s <- get_state ;; if loaded (c_arena s) (c_assemblies s) rn then ret tt else load_assembly f p fs rn ;;; ret tt.

  Lemma iter_obtained f md rows : forall s s1, iter_m (one_reference f md) rows s = Ok tt s1 <-> obtained p fs f md rows s s1.
  Proof.
    induction rows as [|r rows IH]; intros s s1; cbn [iter_m].
    - split; [intro E; injection E as <-; constructor|]. intro X. inversion X; subst. reflexivity.
    - unfold bind at 1, one_reference at 1, bind at 1. split.
      + intro E. destruct (string_at md (ar_name r)) as [rn|] eqn:S; [|discriminate]. apply string_at_inv in S. cbn [ok_or] in E.
        unfold ret at 1 in E. unfold bind at 1, get_state in E. destruct (loaded _ _ rn) eqn:Q.
        * apply loaded_iff in Q. apply IH in E. eapply obtained_before; eauto.
        * apply loaded_not in Q. unfold bind in E. destruct (load_assembly f p fs rn s) as [a s2|? ?|?|?|] eqn:La; try discriminate.
          cbn [ret] in E. apply IH in E. eapply obtained_now; eauto.
      + intro X. inversion X as [|r' rows' rn s' s2 T Q O|r' rows' rn s' a s2 s3 T Q La O]; subst; rewrite (string_at_text _ _ _ T); cbn [ok_or];
          unfold ret at 1; unfold bind at 1, get_state.
        * rewrite (proj2 (loaded_iff _ _) Q). cbn [ret]. now apply IH.
        * rewrite (proj2 (loaded_not _ _) Q). unfold bind. rewrite La. cbn [ret]. now apply IH.
  Qed.
  Lemma iter_stops f md r after e s2 : forall before s s1, obtained p fs f md before s s1 -> one_reference f md r s1 = Err e s2 ->
    iter_m (one_reference f md) (before ++ r :: after) s = Err e s2.
  Proof.
    induction before as [|q before IH]; intros s s1 O E.
    - inversion O; subst. cbn [List.app iter_m]. unfold bind. now rewrite E.
    - cbn [List.app iter_m]. unfold bind at 1. assert (X : exists s3, one_reference f md q s = Ok tt s3 /\ obtained p fs f md before s3 s1).
      { apply iter_obtained in O. cbn [iter_m] in O. apply bind_inv_ok in O as ([] & s3 & X & O). exists s3. split; [exact X|]. now apply iter_obtained. }
      destruct X as (s3 & -> & O'). exact (IH _ _ O' E).
  Qed.

  (** What is wrong with a reference. *)
  Definition reference_lacks (f : nat) (md : metadata) (n : name) (r : assembly_ref_row) (s : vm) (t : name) : Prop :=
    (forall rn, ~ heap_text md (ar_name r) rn) /\ t = n ++ bytes_of_string " contains invalid assembly references" \/
    exists rn s', heap_text md (ar_name r) rn /\ ~ loaded_as s rn /\ by_name_text (load_text f p fs) fs rn s = Ok (Some t) s'.
  Lemma references_sound f md n : forall rows s o s',
    references_text (load_text f p fs) (load_assembly f p fs) fs md n rows s = Ok o s' ->
    match o with
    | None => obtained p fs f md rows s s'
    | Some t => exists before r after s1, rows = before ++ r :: after /\ obtained p fs f md before s s1 /\ reference_lacks f md n r s1 t
    end.
  Proof.
    induction rows as [|r rows IH]; intros s o s' E; cbn [references_text] in E.
    - injection E as <- <-. constructor.
    - destruct (string_at md (ar_name r)) as [rn|] eqn:S.
      + apply string_at_inv in S. unfold bind at 1, get_state in E. destruct (loaded _ _ rn) eqn:Q.
        * apply loaded_iff in Q. specialize (IH _ _ _ E). destruct o as [t|].
          -- destruct IH as (b & q & a & s1 & -> & O & R). exists (r :: b), q, a, s1. split; [reflexivity|]. split; [|exact R].
             eapply obtained_before; eauto.
          -- eapply obtained_before; eauto.
        * apply loaded_not in Q. destruct (by_name_text (load_text f p fs) fs rn s) as [[t|] s2|? ?|?|?|] eqn:B; try discriminate.
          -- injection E as <- <-. exists [], r, rows, s. split; [reflexivity|]. split; [constructor|]. right. eauto.
          -- apply bind_inv_ok in E as (a & s3 & La & E). specialize (IH _ _ _ E). destruct o as [t|].
             ++ destruct IH as (b & q & c & s1 & -> & O & R). exists (r :: b), q, c, s1. split; [reflexivity|]. split; [|exact R].
                eapply obtained_now; eauto.
             ++ eapply obtained_now; eauto.
      + unfold ret in E. assert (o = Some (n ++ bytes_of_string " contains invalid assembly references")) as -> by congruence.
        exists [], r, rows, s. split; [reflexivity|]. split; [constructor|]. left. split; [now apply string_none|reflexivity].
  Qed.
  (** Given that loads which succeed have no text. *)
  Definition silent (f : nat) : Prop := forall data s a s1, history p fs paths s -> load_data f p fs data s = Ok a s1 ->
    exists s2, load_text f p fs data s = Ok None s2.
  Lemma silent_name f rn s a s1 : silent f -> history p fs paths s -> load_assembly f p fs rn s = Ok a s1 ->
    exists s2, by_name_text (load_text f p fs) fs rn s = Ok None s2.
  Proof.
    intros Si H. rewrite load_by_name. unfold by_name_text, bind, get_state.
    destruct (resolve_assembly_name fs (c_paths s) rn) as [c|]; [|discriminate].
    destruct (fs (fst c) (snd c)) as [| |x]; try discriminate. now apply Si.
  Qed.
  Lemma references_past f md n rows : silent f -> forall before s s1, history p fs paths s -> obtained p fs f md before s s1 ->
    references_text (load_text f p fs) (load_assembly f p fs) fs md n (before ++ rows) s =
    references_text (load_text f p fs) (load_assembly f p fs) fs md n rows s1.
  Proof.
    intros Si before. induction before as [|r before IH]; intros s s1 H O.
    - inversion O; subst. reflexivity.
    - cbn [List.app references_text]. inversion O as [|r' rows' rn s' s2 T Q O'|r' rows' rn s' a s2 s3 T Q La O']; subst; rewrite (string_at_text _ _ _ T);
        unfold bind at 1, get_state.
      + rewrite (proj2 (loaded_iff _ _) Q). now apply IH.
      + rewrite (proj2 (loaded_not _ _) Q). destruct (silent_name _ _ _ _ _ Si H La) as [s4 ->]. unfold bind. rewrite La.
        apply IH; [|exact O']. eapply history_load; eauto.
  Qed.
  Lemma references_complete f md n before r after s s1 t : silent f -> history p fs paths s -> obtained p fs f md before s s1 ->
    reference_lacks f md n r s1 t ->
    exists s', references_text (load_text f p fs) (load_assembly f p fs) fs md n (before ++ r :: after) s = Ok (Some t) s'.
  Proof.
    intros Si H O R. rewrite (references_past _ _ _ _ Si _ _ _ H O). cbn [references_text]. destruct R as [[N ->]|(rn & s' & T & Q & B)].
    - rewrite (proj2 (string_none _ _) N). eexists. reflexivity.
    - rewrite (string_at_text _ _ _ T). unfold bind at 1, get_state. rewrite (proj2 (loaded_not _ _) Q), B. eauto.
  Qed.

  Lemma data_image f data s a s' : load_data (S f) p fs data s = Ok a s' -> exists md n, image_of p data md n.
  Proof.
    cbn [load_data]. intro E. apply bind_inv_ok in E as (md & s1 & E1 & E). unfold lift in E1.
    destruct (read_metadata p data tt) as [md' []|? ?|?|?|] eqn:Em; try discriminate. injection E1 as -> <-.
    apply bind_inv_ok in E as (row & s2 & E2 & E). change (handle_of_position TAssembly 0) with 1 in E2.
    apply bind_inv_ok in E as (n & s3 & E3 & _). apply string_run in E3 as [_ T]. exists md, n. split; [exact Em|]. exists row. split; [|exact T].
    split; [lia|]. unfold row_at, lift, table_index in E2. change (u_sub p 64 1 1) with (Some 0) in E2.
    cbn beta iota in E2; destruct (nth_error (tb_assembly (m_tables md)) (N.to_nat 0)) as [x|] eqn:X; [|discriminate]; injection E2 as ->; exact X.
  Qed.
  Lemma counted data md n : image_of p data md n -> len (tb_type_ref (m_tables md)) < 2 ^ 64.
  Proof. intros [E _]. apply type_refs_counted in E. lia. Qed.

  Lemma all_silent : forall f, silent f.
  Proof.
    induction f as [|f IH]; intros data s a s1 H E; [discriminate|]. destruct (data_image _ _ _ _ _ E) as (md & n & I).
    rewrite (load_step _ _ _ _ _ _ _ I) in E. rewrite (text_step _ _ _ _ _ _ _ I).
    apply bind_inv_ok in E as ([] & s2 & E1 & E). apply iter_obtained in E1.
    pose proof (obtained_history _ _ paths _ _ _ _ _ E1 H) as H2. destruct (history_ok _ _ _ _ H2) as (W & _).
    unfold bind at 1. rewrite <- (app_nil_r (tb_assembly_ref (m_tables md))), (references_past f md n [] IH _ _ _ H E1).
    cbn [references_text]. unfold ret at 1. apply bind_inv_ok in E as (refs & s3 & E2 & E).
    destruct (method_refs_run _ _ _ W (counted _ _ _ I) _ _ _ E2) as [-> F2].
    apply bind_inv_ok in E as (trefs & s3 & E3 & _). destruct (type_refs_run _ _ _ _ _ W E3) as [-> F3].
    unfold bind. rewrite (methods_there _ _ _ _ n _ H2).
    - rewrite <- (app_nil_r (tb_type_ref (m_tables md))), (types_past _ _ _ _ n _ H2 _ []).
      + eexists. reflexivity.
      + intros q Iq. apply In_nth_error in Iq as [i Ei]. destruct (Forall2_nth_error_l _ _ _ _ _ F3 Ei) as (t & _ & tn & ns & A & B & C).
        exists tn, ns, t. auto.
    - exact (members_found _ _ _ _ _ _ H2 F2).
  Qed.

  (** A text means that the load fails. *)
  Lemma text_fails : forall f data s t s', history p fs paths s -> load_text f p fs data s = Ok (Some t) s' ->
    exists e s2, load_data f p fs data s = Err e s2 /\ fixed_part e t.
  Proof.
    induction f as [|f IH]; intros data s t s' H E; [discriminate|]. destruct (text_image _ _ _ _ _ _ _ E) as (md & n & I).
    rewrite (text_step _ _ _ _ _ _ _ I) in E. rewrite (load_step _ _ _ _ _ _ _ I). fold (one_reference f md).
    apply bind_inv_ok in E as (o & s1 & E1 & E). apply references_sound in E1. destruct o as [t'|].
    - destruct E1 as (b & r & a & s2 & -> & O & R). injection E as -> _. assert (X : exists e s3, one_reference f md r s2 = Err e s3 /\ fixed_part e t).
      { unfold one_reference. unfold bind at 1. destruct R as [[N ->]|(rn & s3 & T & Q & B)].
        - rewrite (proj2 (string_none _ _) N). eexists _, _. split; [reflexivity|apply part_reference].
        - rewrite (string_at_text _ _ _ T). cbn [ok_or]. unfold ret at 1. unfold bind at 1, get_state. rewrite (proj2 (loaded_not _ _) Q).
          unfold bind. apply by_name_sound in B as [[-> N]|(c & x & F & X & B)].
          + rewrite (load_name_missing _ _ _ _ _ N). eexists _, _. split; [reflexivity|apply part_assembly].
          + rewrite (load_name_file _ _ _ _ _ _ _ F X). pose proof (obtained_history _ _ paths _ _ _ _ _ O H) as H2.
            destruct (IH _ _ _ _ H2 B) as (e & s4 & -> & Y). eauto. }
      destruct X as (e & s3 & X & FP). unfold bind at 1. fold (one_reference f md). exists e, s3. split; [|exact FP].
      pose proof (iter_stops f md r a e s3 _ _ _ O X) as Y. first [rewrite Y | unfold one_reference in Y; rewrite Y]. reflexivity.
    - pose proof (proj2 (iter_obtained _ _ _ _ _) E1) as Y. unfold bind at 1. first [rewrite Y | unfold one_reference in Y; rewrite Y].
      apply bind_inv_ok in E as (o & s2 & E2 & E). pose proof (obtained_history _ _ paths _ _ _ _ _ E1 H) as H2. destruct o as [t'|].
      + injection E as -> _. destruct (methods_agree _ _ _ _ _ _ _ _ E2 eq_refl) as (e & Z & FP). unfold bind. rewrite Z. eauto.
      + destruct (history_ok _ _ _ _ H2) as (W & _). pose proof (methods_sound _ _ _ _ n _ H2 (counted _ _ _ I) _ _ _ E2) as [-> F].
        destruct (types_fail _ _ _ _ _ _ E) as (e & Z & FP). unfold bind at 1.
        destruct (methods_agree _ _ _ _ _ _ _ _ E2 eq_refl) as (refs & Q). rewrite Q. unfold bind at 1. unfold load_type_refs. rewrite Z. eauto.
  Qed.
End Agree.
