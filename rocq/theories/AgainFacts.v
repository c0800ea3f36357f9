(** Executions only add array types and output, and depend on nothing that they change. *)
From Coq Require Import NArith ZArith Lia String List Bool.
From Coq.Strings Require Import Byte.
From Verif Require Import Base BaseFacts Utf BinaryReader Metadata Blob Runtime Value Opcodes Gc Interp SpecAgain MemberFacts TraceFacts.
Import ListNotations.
Open Scope N_scope.

(** ** Runtimes with more types *)

Record ext (v w : vm) : Prop := mkExt {
  e_paths : c_paths w = c_paths v;
  e_assemblies : c_assemblies w = c_assemblies v;
  e_arena : c_arena w = c_arena v;
  e_primitives : c_primitives w = c_primitives v;
  e_types : exists l, c_types w = c_types v ++ l;
  e_found : forall n t, map_get bytes_eqb n (c_type_map v) = Some t -> map_get bytes_eqb n (c_type_map w) = Some t;
  e_missing : forall n, map_get bytes_eqb n (c_type_map v) = None ->
    map_get bytes_eqb n (c_type_map w) = None \/ array_name n;
  e_same : List.length (c_types w) = List.length (c_types v) -> c_type_map w = c_type_map v /\ c_next_id w = c_next_id v }.

Lemma ext_refl v : ext v v.
Proof. constructor; auto. exists []. now rewrite app_nil_r. Qed.
Lemma ext_trans u v w : ext u v -> ext v w -> ext u w.
Proof.
  intros [A1 A2 A3 A4 [l A5] A6 A7 A8] [B1 B2 B3 B4 [l' B5] B6 B7 B8]. constructor; try congruence.
  - exists (l ++ l'). rewrite B5, A5. now rewrite app_assoc.
  - auto.
  - intros n H. destruct (A7 n H) as [H'|H']; [|now right]. now apply B7.
  - intro L. rewrite B5, A5, !app_length in L.
    destruct A8 as [M N]; [rewrite A5, app_length; lia|]. destruct B8 as [M' N']; [rewrite B5, app_length; lia|].
    split; congruence.
Qed.

(** What a runtime in which the same is done must have. *)
Record has (v w : vm) : Prop := mkHas {
  h_arena : forall a ai, nth_error (c_arena v) a = Some (Some ai) -> nth_error (c_arena w) a = Some (Some ai);
  h_primitives : forall q, c_primitives v = Some q -> c_primitives w = Some q;
  h_types : exists l, c_types w = c_types v ++ l;
  h_found : forall n t, looked_up n -> map_get bytes_eqb n (c_type_map v) = Some t -> map_get bytes_eqb n (c_type_map w) = Some t;
  h_void : map_get bytes_eqb (bytes_of_string "System.Void") (c_type_map v) = None ->
    map_get bytes_eqb (bytes_of_string "System.Void") (c_type_map w) = None }.

Lemma void_no_array : ~ array_name (bytes_of_string "System.Void").
Proof.
  intros [e E]. assert (L : rev (bytes_of_string "System.Void") = rev (e ++ bytes_of_string "[]")) by now rewrite <- E.
  rewrite rev_app_distr in L. discriminate L.
Qed.
Lemma ext_has v w : ext v w -> has v w.
Proof.
  intros [A1 A2 A3 A4 A5 A6 A7 A8]. constructor; auto; [now rewrite A3|now rewrite A4|].
  intro H. destruct (A7 _ H) as [|X]; [assumption|now apply void_no_array in X].
Qed.
Lemma has_trans u v w : ext u v -> has v w -> has u w.
Proof.
  intros X [B1 B2 [l' B3] B4 B5]. destruct (ext_has _ _ X) as [A1 A2 [l A3] A4 A5]. constructor; auto.
  exists (l ++ l'). rewrite B3, A3. now rewrite app_assoc.
Qed.

(** The same runtime with more output. *)
Definition said (w : vm) (d : list N) : vm := set_output w (c_output w ++ d).
Lemma said_nil w : said w [] = w.
Proof. unfold said, set_output. rewrite app_nil_r. now destruct w. Qed.
Lemma said_said w d d' : said (said w d) d' = said w (d ++ d').
Proof. unfold said, set_output. cbn. now rewrite app_assoc. Qed.
Lemma has_said v w d : has v w -> has v (said w d).
Proof. intros [A1 A2 A3 A4 A5]. constructor; assumption. Qed.
Lemma ext_said v w d : ext v w -> ext v (said w d).
Proof. intros [A1 A2 A3 A4 A5 A6 A7 A8]. constructor; assumption. Qed.

(** ** Code on the runtime *)

Definition twice (v v' : vm) (again : vm -> list N -> Prop) : Prop :=
  exists d, ext v v' /\ c_output v' = c_output v ++ d /\ forall w, has v' w -> again w d.

Definition stv {A} (m : M vm A) : Prop :=
  forall v, match m v with
            | Ok a v' => twice v v' (fun w d => m w = Ok a (said w d))
            | Err e v' => twice v v' (fun w d => m w = Err e (said w d))
            | _ => True
            end.

(** Code that only reads. *)
Lemma stv_read {A} (m : M vm A) :
  (forall v, match m v with
             | Ok a v' => v' = v /\ forall w, has v w -> m w = Ok a w
             | Err e v' => v' = v /\ forall w, has v w -> m w = Err e w
             | _ => True
             end) -> stv m.
Proof.
  intros H v. specialize (H v). destruct (m v) as [a v'|e v'|x|x|]; auto; destruct H as [-> H]; exists [];
    (split; [apply ext_refl|]; split; [now rewrite app_nil_r|]; intros w E; rewrite said_nil; now apply H).
Qed.
Lemma stv_ret {A} (a : A) : stv (ret a).
Proof. apply stv_read. intro v. cbn. auto. Qed.
Lemma stv_fail {A} e : stv (A := A) (fail e).
Proof. apply stv_read. intro v. cbn. auto. Qed.
Lemma stv_panic {A} e : stv (A := A) (panic e).
Proof. intro v. exact I. Qed.
Lemma stv_nofuel {A} : stv (A := A) nofuel.
Proof. intro v. exact I. Qed.
Lemma stv_bind {A B} (m : M vm A) (k : A -> M vm B) : stv m -> (forall a, stv (k a)) -> stv (bind m k).
Proof.
  intros Hm Hk v. unfold bind at 1. specialize (Hm v).
  destruct (m v) as [a v1|e v1|x|x|]; auto.
  - specialize (Hk a v1).
    destruct Hm as (d & E & O & G).
    destruct (k a v1) as [b v2|e v2|x|x|]; auto; destruct Hk as (d' & E' & O' & G'); exists (d ++ d');
      (split; [eapply ext_trans; eassumption|]; split; [rewrite O', O; now rewrite app_assoc|];
       intros w W; unfold bind; rewrite (G w (has_trans _ _ _ E' W)), (G' _ (has_said _ _ _ W)); now rewrite said_said).
  - destruct Hm as (d & E & O & G). exists d. split; [exact E|]. split; [exact O|].
    intros w W. unfold bind. now rewrite (G w W).
Qed.
Lemma stv_unwrap {A} (o : option A) : stv (unwrap o).
Proof. destruct o; [apply stv_ret|apply stv_panic]. Qed.
Lemma stv_ovf {A} (o : option A) : stv (ovf o).
Proof. destruct o; [apply stv_ret|apply stv_panic]. Qed.
Lemma stv_lift {A} (m : M unit A) : stv (lift m).
Proof. apply stv_read. intro v. unfold lift. destruct (m tt); auto. Qed.
Lemma stv_fold {A B} (f : A -> B -> M vm A) : (forall a x, stv (f a x)) -> forall l a, stv (fold_m f a l).
Proof. intro H. induction l as [|x l IH]; intro a; cbn [fold_m]; [apply stv_ret|]. apply stv_bind; [apply H|intro; apply IH]. Qed.

Lemma stv_the_type t : stv (the_type t).
Proof.
  apply stv_read. intro v. unfold the_type. destruct (nth_error (c_types v) t) as [ti|] eqn:E; [|exact I].
  split; [reflexivity|]. intros w [_ _ [l L] _ _]. rewrite L, nth_error_app1; [now rewrite E|].
  apply nth_error_Some. congruence.
Qed.
Lemma stv_the_assembly a : stv (the_assembly a).
Proof.
  apply stv_read. intro v. unfold the_assembly. destruct (nth_error (c_arena v) a) as [[ai|]|] eqn:E; try exact I.
  split; [reflexivity|]. intros w X. now rewrite (h_arena _ _ X _ _ E).
Qed.
Lemma stv_the_primitives : stv the_primitives.
Proof.
  apply stv_read. intro v. unfold the_primitives. destruct (c_primitives v) as [q|] eqn:E; [|exact I].
  split; [reflexivity|]. intros w X. now rewrite (h_primitives _ _ X _ E).
Qed.
Lemma stv_named s : looked_up (bytes_of_string s) -> stv (named s).
Proof.
  intro U. apply stv_read. intro v. unfold named, bind, get_type.
  destruct (map_get bytes_eqb _ (c_type_map v)) as [t|] eqn:E; cbn; [|exact I].
  split; [reflexivity|]. intros w X. now rewrite (h_found _ _ X _ _ U E).
Qed.
Lemma stv_get_void : stv (get_type (bytes_of_string "System.Void")).
Proof.
  assert (U : looked_up (bytes_of_string "System.Void")) by (left; eexists; reflexivity).
  apply stv_read. intro v. unfold get_type. split; [reflexivity|]. intros w X.
  destruct (map_get bytes_eqb _ (c_type_map v)) as [t|] eqn:E.
  - now rewrite (h_found _ _ X _ _ U E).
  - now rewrite (h_void _ _ X E).
Qed.
Lemma stv_type_eq t u : stv (type_eq t u).
Proof. apply stv_bind; [apply stv_the_type|intro a]. apply stv_bind; [apply stv_the_type|intro b]. apply stv_ret. Qed.

Lemma stv_array_of p t : stv (array_of p t).
Proof.
  apply stv_bind; [apply stv_the_type|intro e]. cbv zeta. set (fn := ti_full_name e ++ bytes_of_string "[]").
  assert (U : looked_up fn) by (right; eexists; reflexivity).
  intro v. unfold bind at 1, get_type at 1.
  destruct (map_get bytes_eqb fn (c_type_map v)) as [t'|] eqn:E.
  - cbn [ret]. exists []. split; [apply ext_refl|]. split; [now rewrite app_nil_r|]. intros w X.
    unfold bind, get_type. rewrite (h_found _ _ X _ _ U E), said_nil. reflexivity.
  - unfold bind at 1, next_type_id at 1. destruct (u_add p 32 (c_next_id v) 1) as [n|]; [|exact I].
    unfold bind at 1, get_type at 1, add_type at 1. cbn [set_next_id c_paths c_assemblies c_arena c_types c_type_map c_next_id c_primitives c_output ti_full_name].
    match goal with |- twice _ ?v' _ => set (v2 := v') end.
    assert (G : map_get bytes_eqb fn (c_type_map v2) = Some (List.length (c_types v))).
    { subst v2. cbn [c_type_map]. rewrite get_put. now rewrite (proj2 (bytes_eqb_spec fn fn) eq_refl). }
    exists []. split; [|split; [now rewrite app_nil_r|]].
    + constructor; try reflexivity.
      * eexists. reflexivity.
      * intros k u K. subst v2. cbn [c_type_map]. rewrite get_put. destruct (bytes_eqb fn k) eqn:B; [|exact K].
        apply bytes_eqb_spec in B. congruence.
      * intros k K. subst v2. cbn [c_type_map]. rewrite get_put. destruct (bytes_eqb fn k) eqn:B; [|now left].
        right. apply bytes_eqb_spec in B. exists (ti_full_name e). now rewrite <- B.
      * subst v2. cbn [c_types]. rewrite app_length. cbn [List.length]. lia.
    + intros w X. unfold bind, get_type. rewrite (h_found _ _ X _ _ U G), said_nil. reflexivity.
Qed.

Create HintDb stv discriminated.
#[export] Hint Resolve stv_ret stv_fail stv_panic stv_nofuel stv_unwrap stv_ovf stv_lift stv_the_type stv_the_assembly
  stv_the_primitives stv_type_eq stv_array_of : stv.
Ltac stv := repeat first
  [ solve [auto 2 with stv nocore]
  | lazymatch goal with
    | |- stv (named _) => apply stv_named; left; eexists; reflexivity
    | |- stv (bind _ _) => apply stv_bind; [|intro]
    | |- stv (fold_m _ _ _) => apply stv_fold; intros
    | |- stv (let x := _ in _) => cbv zeta
    | |- stv (match ?x with _ => _ end) => destruct x
    end ].

Lemma stv_contains_type other : forall l, stv (contains_type l other).
Proof. induction l as [|t l IH]; cbn [contains_type]; stv. Qed.
#[export] Hint Resolve stv_contains_type : stv.
Lemma stv_instance_of other : forall fuel t, stv (instance_of fuel t other).
Proof. induction fuel as [|f IH]; intro t; cbn [instance_of]; stv. Qed.
#[export] Hint Resolve stv_instance_of : stv.
Lemma stv_is_reference_type fuel t : stv (is_reference_type fuel t).
Proof. unfold is_reference_type. stv. Qed.
#[export] Hint Resolve stv_is_reference_type : stv.
Lemma stv_try_sizes_ t : forall l, Forall (fun e => looked_up (bytes_of_string (fst e))) l -> stv (try_sizes l t).
Proof.
  induction l as [|[s n] l IH]; intro F; cbn [try_sizes]; [stv|]. inversion F as [|x y U F']; subst.
  apply stv_bind; [now apply stv_named|intro u]. apply stv_bind; [stv|]. intros [|]; [stv|]. now apply IH.
Qed.
Lemma stv_try_sizes t : stv (try_sizes primitive_sizes t).
Proof. apply stv_try_sizes_. repeat constructor; eexists; reflexivity. Qed.
#[export] Hint Resolve stv_try_sizes : stv.
Lemma stv_type_size p : forall fuel t, stv (type_size fuel p t).
Proof. induction fuel as [|f IH]; intro t; cbn [type_size]; stv. Qed.
#[export] Hint Resolve stv_type_size : stv.
Lemma stv_get_row {A} p (l : list A) tok : stv (get_row p l tok).
Proof. unfold get_row. stv. Qed.
#[export] Hint Resolve stv_get_row : stv.
Lemma stv_resolve_method p a tok : stv (resolve_method p a tok).
Proof. unfold resolve_method. stv. Qed.
Lemma stv_resolve_field p a tok : stv (resolve_field p a tok).
Proof. unfold resolve_field. stv. Qed.
Lemma stv_resolve_type p a tok : stv (resolve_type p a tok).
Proof. unfold resolve_type. stv. Qed.
Lemma stv_get_string p a tok : stv (get_string p a tok).
Proof. unfold get_string. stv. Qed.
Lemma stv_id_of t : stv (id_of t).
Proof. unfold id_of. stv. Qed.
Lemma stv_held_as q t : forall l, stv (held_as l q t).
Proof. induction l as [|[h f] l IH]; cbn [held_as]; stv. Qed.
Lemma stv_output text : stv (fun s => Ok tt (set_output s (c_output s ++ text))).
Proof.
  intro v. exists text. split; [apply (ext_said v v text), ext_refl|]. split; [reflexivity|]. reflexivity.
Qed.
#[export] Hint Resolve stv_resolve_method stv_resolve_field stv_resolve_type stv_get_string stv_id_of stv_held_as stv_output : stv.

(** ** Code on the machine *)

Definition stm {A} (m : M machine A) : Prop :=
  forall s, match m s with
            | Ok a s' => twice (x_vm s) (x_vm s') (fun w d => m (set_vm s w) = Ok a (set_vm s' (said w d)))
            | Err e s' => twice (x_vm s) (x_vm s') (fun w d => m (set_vm s w) = Err e (set_vm s' (said w d)))
            | _ => True
            end.

(** Code that leaves the runtime alone. *)
Lemma stm_local {A} (m : M machine A) :
  (forall s, match m s with
             | Ok a s' => x_vm s' = x_vm s /\ forall w, m (set_vm s w) = Ok a (set_vm s' w)
             | Err e s' => x_vm s' = x_vm s /\ forall w, m (set_vm s w) = Err e (set_vm s' w)
             | _ => True
             end) -> stm m.
Proof.
  intros H s. specialize (H s). destruct (m s) as [a s'|e s'|x|x|]; auto; destruct H as [-> H]; exists [];
    (split; [apply ext_refl|]; split; [now rewrite app_nil_r|]; intros w _; rewrite said_nil; apply H).
Qed.
Ltac local := apply stm_local; intro; cbv zeta; cbn [set_vm x_heap x_frames x_operands x_host x_alloc];
  repeat match goal with
    | |- match (match ?x with _ => _ end) with _ => _ end => destruct x
    | |- match (if ?x then _ else _) with _ => _ end => destruct x
    end; try exact I; try (split; [reflexivity|intro; reflexivity]).
Lemma stm_ret {A} (a : A) : stm (ret a).
Proof. apply stm_local. intro s. cbn. auto. Qed.
Lemma stm_fail {A} e : stm (A := A) (fail e).
Proof. apply stm_local. intro s. cbn. auto. Qed.
Lemma stm_panic {A} e : stm (A := A) (panic e).
Proof. intro s. exact I. Qed.
Lemma stm_ub {A} e : stm (A := A) (ub e).
Proof. intro s. exact I. Qed.
Lemma stm_nofuel {A} : stm (A := A) nofuel.
Proof. intro s. exact I. Qed.
Lemma stm_bind {A B} (m : M machine A) (k : A -> M machine B) : stm m -> (forall a, stm (k a)) -> stm (bind m k).
Proof.
  intros Hm Hk s. unfold bind at 1. specialize (Hm s).
  destruct (m s) as [a s1|e s1|x|x|]; auto.
  - specialize (Hk a s1).
    destruct Hm as (d & E & O & G).
    destruct (k a s1) as [b s2|e s2|x|x|]; auto; destruct Hk as (d' & E' & O' & G'); exists (d ++ d');
      (split; [eapply ext_trans; eassumption|]; split; [rewrite O', O; now rewrite app_assoc|];
       intros w W; unfold bind; rewrite (G w (has_trans _ _ _ E' W)), (G' _ (has_said _ _ _ W)); now rewrite said_said).
  - destruct Hm as (d & E & O & G). exists d. split; [exact E|]. split; [exact O|].
    intros w W. unfold bind. now rewrite (G w W).
Qed.
Lemma stm_on_vm {A} (m : M vm A) : stv m -> stm (on_vm m).
Proof.
  intros H s. unfold on_vm at 1. specialize (H (x_vm s)).
  destruct (m (x_vm s)) as [a v|e v|x|x|]; auto; destruct H as (d & E & O & G); exists d;
    (split; [exact E|]; split; [exact O|]; intros w W; unfold on_vm; cbn [set_vm x_vm] in *; now rewrite (G w W)).
Qed.
Lemma stm_unwrap {A} (o : option A) : stm (unwrap o).
Proof. destruct o; [apply stm_ret|apply stm_panic]. Qed.
Lemma stm_ovf {A} (o : option A) : stm (ovf o).
Proof. destruct o; [apply stm_ret|apply stm_panic]. Qed.
Lemma stm_in_frame {A} (m : M machine A) : stm m -> stm (in_frame m).
Proof.
  intros H s. unfold in_frame at 1. cbv zeta. specialize (H (set_alloc s 0)).
  destruct (m (set_alloc s 0)) as [a s1|e s1|x|x|] eqn:E1; auto; destruct H as (d & E & O & G); exists d;
    (split; [exact E|]; split; [exact O|]; intros w W; unfold in_frame; cbv zeta;
     change (set_alloc (set_vm s w) 0) with (set_vm (set_alloc s 0) w); rewrite (G w W); reflexivity).
Qed.

Create HintDb stm discriminated.
#[export] Hint Resolve stm_ret stm_fail stm_panic stm_ub stm_nofuel stm_unwrap stm_ovf : stm.
Ltac stm_head := fail.
Ltac stm := repeat first
  [ solve [auto 2 with stm nocore]
  | lazymatch goal with
    | |- stm (bind _ _) => apply stm_bind; [|intro]
    | |- stm (on_vm _) => apply stm_on_vm; solve [stv]
    | |- stm (in_frame _) => apply stm_in_frame
    | |- stm (let x := _ in _) => cbv zeta
    | |- stm (match ?x with _ => _ end) => destruct x
    end ].

(** ** Memory *)

Lemma stm_load o d n : stm (load o d n).
Proof. unfold load. local. Qed.
Lemma stm_store o d bs : stm (store o d bs).
Proof. unfold store. local. Qed.
Lemma stm_vec_reserve n : stm (vec_reserve n).
Proof.
  apply stm_local. intro s. unfold vec_reserve. cbv zeta. cbn [set_vm x_heap].
  destruct (_ <? _); [destruct (_ <? _); [exact I|]|]; auto.
Qed.
Lemma stm_len : stm (fun s => Ok (len (h_mem (x_heap s))) s).
Proof. local. Qed.
Lemma stm_heap : stm (fun s => Ok (x_heap s) s).
Proof. local. Qed.
#[export] Hint Resolve stm_load stm_store stm_vec_reserve stm_len stm_heap : stm.
Lemma stm_vec_resize n : stm (vec_resize n).
Proof. unfold vec_resize. apply stm_bind; [stm|intro l]. destruct (_ <? _); [apply stm_bind; [stm|intros _]|]; local. Qed.
#[export] Hint Resolve stm_vec_resize : stm.
Lemma stm_make_room p n : stm (make_room p n).
Proof. unfold make_room, ensure_size. stm. local. Qed.
Lemma stm_add_flag o f : stm (add_flag o f).
Proof. unfold add_flag. stm. Qed.
#[export] Hint Resolve stm_make_room stm_add_flag : stm.
Lemma stm_alloc fuel p t : stm (alloc fuel p t).
Proof. unfold alloc. stm. Qed.
Lemma stm_alloc_array fuel p t n : stm (alloc_array fuel p t n).
Proof. unfold alloc_array. stm. Qed.
Lemma stm_alloc_string p text : stm (alloc_string p text).
Proof. unfold alloc_string. stm. Qed.
Lemma stm_flags_of o : stm (flags_of o).
Proof. unfold flags_of. stm. Qed.
#[export] Hint Resolve stm_alloc stm_alloc_array stm_alloc_string stm_flags_of : stm.
Lemma stm_as_array o : stm (as_array o).
Proof. unfold as_array. stm. Qed.
Lemma stm_as_string o : stm (as_string o).
Proof. unfold as_string. stm. Qed.
Lemma stm_raw_object o : stm (raw_object o).
Proof. unfold raw_object. stm. Qed.
Lemma stm_type_of o : stm (type_of o).
Proof.
  unfold type_of. apply stm_bind; [stm|intro b]. intro s. destruct (_ <? _) eqn:E; [|exact I].
  exists []. split; [apply ext_refl|]. split; [now rewrite app_nil_r|]. intros w X.
  rewrite said_nil. cbn [set_vm x_vm]. destruct (h_types _ _ X) as [l L]. rewrite L.
  assert (T : (le_dec b <? len (c_types (x_vm s) ++ l)) = true).
  { apply N.ltb_lt in E. apply N.ltb_lt. unfold len in *. rewrite app_length. lia. }
  now rewrite T.
Qed.
#[export] Hint Resolve stm_as_array stm_as_string stm_raw_object stm_type_of : stm.
Lemma stm_set_field o f v : stm (set_field o f v).
Proof. unfold set_field. stm. Qed.
Lemma stm_get_field_value o f : stm (get_field_value o f).
Proof. unfold get_field_value. stm. Qed.
Lemma stm_array_slice o h : stm (array_slice o h).
Proof. unfold array_slice. stm. Qed.
Lemma stm_slice_get o h n i : stm (slice_get o h n i).
Proof. unfold slice_get. stm. Qed.
Lemma stm_slice_set o h n i bs : stm (slice_set o h n i bs).
Proof. unfold slice_set. stm. Qed.
Lemma stm_string_data o : stm (string_data o).
Proof. unfold string_data. stm. Qed.
#[export] Hint Resolve stm_set_field stm_get_field_value stm_array_slice stm_slice_get stm_slice_set stm_string_data : stm.

(** ** Operands and variables *)

Lemma stm_push v : stm (push v).
Proof. unfold push. local. Qed.
Lemma stm_try_pop : stm try_pop.
Proof. apply stm_local. intro s. unfold try_pop. cbn [set_vm x_operands]. destruct (x_operands s); auto. Qed.
Lemma stm_peek_top : stm peek_top.
Proof. apply stm_local. intro s. unfold peek_top. cbn [set_vm x_operands]. destruct (x_operands s); auto. Qed.
#[export] Hint Resolve stm_push stm_try_pop stm_peek_top : stm.
Lemma stm_pop : stm pop.
Proof. unfold pop. stm. Qed.
#[export] Hint Resolve stm_pop : stm.
Lemma stm_pop_i32 : stm pop_i32.
Proof. unfold pop_i32. stm. Qed.
Lemma stm_pop_array : stm pop_array.
Proof. unfold pop_array. stm. Qed.
#[export] Hint Resolve stm_pop_i32 stm_pop_array : stm.
Lemma stm_stackalloc n : stm (stackalloc n).
Proof. apply stm_local. intro s. unfold stackalloc. cbv zeta. cbn [set_vm x_frames]. auto. Qed.
Lemma stm_cell_get c i : stm (cell_get c i).
Proof.
  apply stm_local. intro s. unfold cell_get. cbn [set_vm x_frames x_host]. destruct c as [|g b n].
  - destruct (nth_error _ _); auto.
  - destruct (_ <=? _); [exact I|]. destruct (negb _); [exact I|]. destruct (nth_error _ _); auto.
Qed.
Lemma stm_cell_set c i v : stm (cell_set c i v).
Proof.
  apply stm_local. intro s. unfold cell_set. cbn [set_vm x_frames x_host]. destruct c as [|g b n].
  - destruct (_ <=? _); auto.
  - destruct (_ <=? _); [exact I|]. destruct (negb _); [exact I|]. destruct (_ <=? _); auto.
Qed.
#[export] Hint Resolve stm_stackalloc stm_cell_get stm_cell_set : stm.
Lemma stm_pop_args c : forall n, stm (pop_args c n).
Proof. induction n as [|n IH]; cbn [pop_args]; stm. Qed.
#[export] Hint Resolve stm_pop_args : stm.

(** ** Instructions *)

Lemma stm_code_at fr i : stm (code_at fr i).
Proof. unfold code_at. stm. Qed.
Lemma stm_il_get fr n : stm (il_get fr n).
Proof. unfold il_get. stm. Qed.
#[export] Hint Resolve stm_code_at stm_il_get : stm.
Lemma stm_il_signed fr n : stm (il_signed fr n).
Proof. unfold il_signed. stm. Qed.
Lemma stm_get_opcode fr : stm (get_opcode fr).
Proof. unfold get_opcode. stm. Qed.
Lemma stm_next fr : stm (next fr).
Proof. unfold next. stm. Qed.
#[export] Hint Resolve stm_il_signed stm_get_opcode stm_next : stm.
Lemma stm_arith p t x : stm (arith p t x).
Proof. unfold arith. stm. Qed.
Lemma stm_shift_amount p t b : stm (shift_amount p t b).
Proof. unfold shift_amount. stm. Qed.
Lemma stm_int_div t a b : stm (int_div t a b).
Proof. unfold int_div. stm. Qed.
Lemma stm_int_rem t a b : stm (int_rem t a b).
Proof. unfold int_rem. stm. Qed.
#[export] Hint Resolve stm_arith stm_shift_amount stm_int_div stm_int_rem : stm.
Lemma stm_binary w f o a b : (forall t x y, stm (f t x y)) -> stm (binary w f o a b).
Proof. intro H. unfold binary. destruct a, b; stm. Qed.
Lemma stm_v_cmp a b : stm (v_cmp a b).
Proof. unfold v_cmp. stm. Qed.
Lemma stm_v_eq a b : stm (v_eq a b).
Proof. unfold v_eq. stm. Qed.
Lemma stm_is_null_or_zero a : stm (is_null_or_zero a).
Proof. unfold is_null_or_zero. stm. Qed.
#[export] Hint Resolve stm_v_cmp stm_v_eq stm_is_null_or_zero : stm.
Lemma stm_v_lt a b : stm (v_lt a b). Proof. unfold v_lt. stm. Qed.
Lemma stm_v_le a b : stm (v_le a b). Proof. unfold v_le. stm. Qed.
Lemma stm_v_gt a b : stm (v_gt a b). Proof. unfold v_gt. stm. Qed.
Lemma stm_v_ge a b : stm (v_ge a b). Proof. unfold v_ge. stm. Qed.
Lemma stm_eq_test a b : stm (eq_test a b). Proof. unfold eq_test. stm. Qed.
Lemma stm_v_neg p a : stm (v_neg p a). Proof. unfold v_neg. stm. Qed.
Lemma stm_v_not a : stm (v_not a). Proof. unfold v_not. stm. Qed.
Lemma stm_v_add p a b : stm (v_add p a b). Proof. apply stm_binary. intros. stm. Qed.
Lemma stm_v_sub p a b : stm (v_sub p a b). Proof. apply stm_binary. intros. stm. Qed.
Lemma stm_v_mul p a b : stm (v_mul p a b). Proof. apply stm_binary. intros. stm. Qed.
Lemma stm_v_div a b : stm (v_div a b). Proof. apply stm_binary. intros. stm. Qed.
Lemma stm_v_rem a b : stm (v_rem a b). Proof. apply stm_binary. intros. stm. Qed.
Lemma stm_v_and a b : stm (v_and a b). Proof. apply stm_binary. intros. stm. Qed.
Lemma stm_v_or a b : stm (v_or a b). Proof. apply stm_binary. intros. stm. Qed.
Lemma stm_v_xor a b : stm (v_xor a b). Proof. apply stm_binary. intros. stm. Qed.
Lemma stm_v_shl p a b : stm (v_shl p a b). Proof. apply stm_binary. intros. stm. Qed.
Lemma stm_v_shr p a b : stm (v_shr p a b). Proof. apply stm_binary. intros. stm. Qed.
#[export] Hint Resolve stm_v_lt stm_v_le stm_v_gt stm_v_ge stm_eq_test stm_v_neg stm_v_not stm_v_add stm_v_sub stm_v_mul
  stm_v_div stm_v_rem stm_v_and stm_v_or stm_v_xor stm_v_shl stm_v_shr : stm.
Lemma stm_ldc fr v : stm (ldc fr v). Proof. unfold ldc. stm. Qed.
Lemma stm_ld fr c i : stm (ld fr c i). Proof. unfold ld. stm. Qed.
Lemma stm_st fr c i : stm (st fr c i). Proof. unfold st. stm. Qed.
#[export] Hint Resolve stm_ldc stm_ld stm_st : stm.
Lemma stm_ld_n n fr c : stm (ld_n n fr c). Proof. unfold ld_n. stm. Qed.
Lemma stm_st_n n fr c : stm (st_n n fr c). Proof. unfold st_n. stm. Qed.
Lemma stm_br n fr : stm (br n fr). Proof. unfold br. stm. Qed.
Lemma stm_br_if n fr z : stm (br_if n fr z). Proof. unfold br_if. stm. Qed.
Lemma stm_br_cmp n fr test : (forall a b, stm (test a b)) -> stm (br_cmp n fr test).
Proof. intro H. unfold br_cmp. stm. Qed.
Lemma stm_compare fr test : (forall a b, stm (test a b)) -> stm (compare fr test).
Proof. intro H. unfold compare. stm. Qed.
Lemma stm_op2 fr f : (forall a b, stm (f a b)) -> stm (op2 fr f).
Proof. intro H. unfold op2. stm. Qed.
Lemma stm_op1 fr f : (forall a, stm (f a)) -> stm (op1 fr f).
Proof. intro H. unfold op1. stm. Qed.
Lemma stm_method_call p fr tok r : stm (method_call p fr tok r).
Proof. unfold method_call. stm. Qed.
#[export] Hint Resolve stm_ld_n stm_st_n stm_br stm_br_if stm_method_call : stm.
Lemma stm_newobj fuel p fr : stm (newobj fuel p fr).
Proof.
  unfold newobj. stm. apply stm_local. intro s. cbn [set_vm x_operands]. destruct (Nat.leb _ _); auto.
Qed.
Lemma stm_stfld p fr : stm (stfld p fr). Proof. unfold stfld. stm. Qed.
Lemma stm_ldfld p fr : stm (ldfld p fr). Proof. unfold ldfld. stm. Qed.
Lemma stm_newarr fuel p fr : stm (newarr fuel p fr). Proof. unfold newarr. stm. Qed.
Lemma stm_i32_slice o : stm (i32_slice o). Proof. unfold i32_slice. stm. Qed.
#[export] Hint Resolve stm_i32_slice : stm.
Lemma stm_stelem_i4 fr : stm (stelem_i4 fr). Proof. unfold stelem_i4. stm. Qed.
Lemma stm_ldelem_i4 fr : stm (ldelem_i4 fr). Proof. unfold ldelem_i4. stm. Qed.
Lemma stm_ldstr p fr : stm (ldstr p fr). Proof. unfold ldstr. stm. Qed.

Lemma stm_ret_op fr : stm (ret_op fr).
Proof.
  unfold ret_op. apply stm_bind; [apply stm_on_vm, stv_get_void|intro o].
  apply stm_bind; [destruct o; stm|]. intros [|]; stm.
Qed.
#[export] Hint Resolve stm_newobj stm_stfld stm_ldfld stm_newarr stm_stelem_i4 stm_ldelem_i4 stm_ldstr stm_ret_op : stm.

Lemma stm_exec_op fuel p op fr : stm (exec_op fuel p op fr).
Proof.
  unfold exec_op. cbv zeta. destruct op;
    first [apply stm_fail | apply stm_op2; intros | apply stm_op1; intros | apply stm_br_cmp; intros | apply stm_compare; intros | idtac];
    stm.
Qed.
Lemma stm_step fuel p fr : stm (step fuel p fr).
Proof. unfold step. apply stm_bind; [stm|]. intros [op fr']. apply stm_exec_op. Qed.

(** ** Calls *)

Lemma stm_console_write args : stm (console_write args).
Proof. unfold console_write. stm. Qed.
Lemma stm_invoke r m args : (forall fr, stm (r fr)) -> stm (invoke r m args).
Proof. intro H. unfold invoke. pose proof stm_console_write. stm. Qed.
Lemma stm_run p : forall fuel fr, stm (run fuel p fr).
Proof.
  induction fuel as [|f IH]; intro fr; cbn [run]; [apply stm_nofuel|].
  apply stm_bind; [apply stm_step|]. intros [fr'|v|m args r fr']; [apply IH|apply stm_ret|].
  apply stm_bind; [apply stm_invoke, IH|intro v].
  apply stm_bind; [destruct v; cbn [push_if]; stm|intros _]. apply stm_bind; [destruct r; cbn [push_if]; stm|intros _]. apply IH.
Qed.

Lemma stv_execute fuel p m params : stv (execute fuel p m params).
Proof.
  intro v. unfold execute at 1. destruct (negb (mt_static m)) eqn:St.
  - pose proof (stv_the_type (mt_declaring m) v) as H. unfold execute. rewrite St.
    destruct (the_type (mt_declaring m) v) as [ti v'|e v'|x|x|] eqn:E; auto.
    assert (v' = v) by (unfold the_type in E; destruct (nth_error _ _); congruence). subst v'.
    destruct H as (d & X & O & G). exists []. split; [exact X|]. split; [now rewrite app_nil_r|].
    intros w W. rewrite (G w W), said_nil. reflexivity.
  - pose proof (stm_invoke (run fuel p) m CHost (stm_run p fuel) (new_machine v params)) as H.
    unfold execute. rewrite St.
    destruct (invoke (run fuel p) m CHost (new_machine v params)) as [[[t x|x|x|o]|] s'|e s'|x|x|]; auto;
      destruct H as (d & X & O & G); exists d;
      (split; [exact X|]; split; [exact O|]; intros w W;
       change (new_machine w params) with (set_vm (new_machine v params) w); now rewrite (G w W)).
Qed.
