(** Executions without hazards: the runtime and the heap. *)
From Coq Require Import NArith ZArith Arith Lia String List Bool.
From Coq.Strings Require Import Byte.
From Verif Require Import Base BaseFacts ParseSpec ReaderFacts Metadata Blob BinaryReader BlobProofs ReaderProofs Utf Runtime Value Opcodes Gc Interp SpecBytes SpecExec SpecFrames SpecStack SpecRuntime SpecTypes SpecHeap
  SpecSafety RuntimeInv InterpFacts InterpInv FrameFacts VmFacts StackFacts TypeFacts HeapFacts FieldFacts CallFacts TraceFacts PropsDecode PropsHeap.
Import ListNotations.
Open Scope N_scope.

(** ** Code without undefined behaviour *)

Definition sound {S A} (m : M S A) : Prop := forall s w, m s <> Ub w.
Lemma sound_ret {S A} (a : A) : sound (S := S) (ret a). Proof. intros s w. discriminate. Qed.
Lemma sound_fail {S A} e : sound (S := S) (A := A) (fail e). Proof. intros s w. discriminate. Qed.
Lemma sound_panic {S A} e : sound (S := S) (A := A) (panic e). Proof. intros s w. discriminate. Qed.
Lemma sound_nofuel {S A} : sound (S := S) (A := A) nofuel. Proof. intros s w. discriminate. Qed.
Lemma sound_unwrap {S A} (o : option A) : sound (S := S) (unwrap o).
Proof. destruct o; [apply sound_ret|apply sound_panic]. Qed.
Lemma sound_ovf {S A} (o : option A) : sound (S := S) (ovf o).
Proof. destruct o; [apply sound_ret|apply sound_panic]. Qed.
Lemma sound_bind {S A B} (m : M S A) (k : A -> M S B) : sound m -> (forall a, sound (k a)) -> sound (bind m k).
Proof. intros Hm Hk s w. unfold bind. specialize (Hm s). destruct (m s); try discriminate; [apply Hk|]. intro E. now apply (Hm why). Qed.
Lemma sound_fold_m {S A B} (f : A -> B -> M S A) : (forall a x, sound (f a x)) -> forall l a, sound (fold_m f a l).
Proof. intro H. induction l as [|x l IH]; intro a; cbn [fold_m]; [apply sound_ret|apply sound_bind; auto]. Qed.
Lemma sound_lift {S A} (m : M unit A) : sound m -> sound (S := S) (lift m).
Proof. intros H s w. unfold lift. specialize (H tt). destruct (m tt); try discriminate. intro E. now apply (H why). Qed.
Lemma sound_on_vm {A} (m : M vm A) : sound m -> sound (on_vm m).
Proof. intros H s w. unfold on_vm. specialize (H (x_vm s)). destruct (m (x_vm s)); try discriminate. intro E. now apply (H why). Qed.

Ltac snd := repeat first
  [ apply sound_ret | apply sound_fail | apply sound_panic | apply sound_nofuel | apply sound_unwrap | apply sound_ovf
  | apply sound_bind; [|intro] ].

Lemma sound_the_type t : sound (the_type t).
Proof. intros s w. unfold the_type. destruct (nth_error _ _); discriminate. Qed.
Lemma sound_the_assembly a : sound (the_assembly a).
Proof. intros s w. unfold the_assembly. destruct (nth_error _ _) as [[|]|]; discriminate. Qed.
Lemma sound_get_type n : sound (get_type n). Proof. intros s w. discriminate. Qed.
Lemma sound_named n : sound (named n).
Proof. unfold named. apply sound_bind; [apply sound_get_type|intro]. snd. Qed.
Lemma sound_type_eq t u : sound (type_eq t u).
Proof. unfold type_eq. apply sound_bind; [apply sound_the_type|intro]. apply sound_bind; [apply sound_the_type|intro]. snd. Qed.
Lemma sound_the_primitives : sound the_primitives.
Proof. intros s w. unfold the_primitives. destruct (c_primitives s); discriminate. Qed.
Lemma sound_get_row {A} p (l : list A) tok : sound (get_row p l tok).
Proof. unfold get_row. destruct (u_sub _ _ _ _); snd. Qed.
Lemma sound_resolve_method p a tok : sound (resolve_method p a tok).
Proof.
  unfold resolve_method. apply sound_bind; [apply sound_the_assembly|intro ai].
  destruct (_ =? _); [apply sound_get_row|]. destruct (_ =? _); [apply sound_get_row|snd].
Qed.
Lemma sound_resolve_field p a tok : sound (resolve_field p a tok).
Proof.
  unfold resolve_field. apply sound_bind; [apply sound_the_assembly|intro ai].
  destruct (_ =? _); [apply sound_get_row|snd].
Qed.
Lemma sound_resolve_type p a tok : sound (resolve_type p a tok).
Proof.
  unfold resolve_type. apply sound_bind; [apply sound_the_assembly|intro ai].
  destruct (_ =? _); [apply sound_get_row|]. destruct (_ =? _); [apply sound_get_row|snd].
Qed.
Lemma sound_id_of t : sound (id_of t).
Proof. unfold id_of. apply sound_bind; [apply sound_the_type|intro]. snd. Qed.
Lemma sound_held_as l q t : sound (held_as l q t).
Proof.
  induction l as [|[h pt] l IH]; cbn [held_as]; [snd|].
  apply sound_bind; [apply sound_type_eq|intros [|]; [snd|exact IH]].
Qed.
Lemma sound_contains_type l u : sound (contains_type l u).
Proof.
  induction l as [|t l IH]; cbn [contains_type]; [snd|].
  apply sound_bind; [apply sound_type_eq|intros [|]; [snd|exact IH]].
Qed.
Lemma sound_instance_of : forall f t u, sound (instance_of f t u).
Proof.
  induction f as [|f IH]; intros t u; cbn [instance_of]; [snd|].
  apply sound_bind; [apply sound_type_eq|intros [|]; [snd|]].
  apply sound_bind; [apply sound_the_type|intro ti].
  destruct (ti_base ti); [apply IH|apply sound_contains_type].
Qed.
Lemma sound_is_reference_type f t : sound (is_reference_type f t).
Proof.
  unfold is_reference_type. apply sound_bind; [apply sound_named|intro v].
  apply sound_bind; [apply sound_instance_of|intro]. snd.
Qed.
Lemma sound_try_sizes l t : sound (try_sizes l t).
Proof.
  induction l as [|[n k] l IH]; cbn [try_sizes]; [snd|].
  apply sound_bind; [apply sound_named|intro u].
  apply sound_bind; [apply sound_type_eq|intros [|]; [snd|exact IH]].
Qed.
Lemma sound_type_size p : forall f t, sound (type_size f p t).
Proof.
  induction f as [|f IH]; intro t; cbn [type_size]; [snd|].
  apply sound_bind; [apply sound_try_sizes|intros [n|]; [snd|]].
  apply sound_bind; [apply sound_the_type|intro ti].
  apply sound_bind.
  - apply sound_fold_m. intros a x. apply sound_bind; [apply sound_is_reference_type|intro r].
    apply sound_bind; [destruct r; [snd|apply IH]|intro n; snd].
  - intro size. destruct (ti_base ti); [apply sound_bind; [apply IH|intro; snd]|snd].
Qed.
Lemma sound_array_of p t : sound (array_of p t).
Proof.
  unfold array_of. apply sound_bind; [apply sound_the_type|intro e]. cbv zeta.
  apply sound_bind; [apply sound_get_type|intros [u|]; [snd|]].
  apply sound_bind; [intros s w; unfold next_type_id; destruct (u_add _ _ _ _); discriminate|intro id].
  apply sound_bind; [apply sound_get_type|intro b]. intros s w. discriminate.
Qed.

(** ** Literals *)

Lemma get_string_safe p a tok s : vectors s ->
  match get_string p a tok s with
  | Ub _ => False
  | Ok (Some text) _ => Forall (fun u => u < 2 ^ 16) text /\ len text < 2 ^ 30
  | _ => True
  end.
Proof.
  intro V. unfold get_string, bind at 1, the_assembly. destruct (nth_error (c_arena s) a) as [[ai|]|] eqn:Ea; [|exact I..].
  destruct (V _ _ Ea) as (L & _). destruct (token_table tok =? 0x70); [|exact I]. unfold bind at 1, lift at 1, slice_from.
  destruct (N.ltb_spec (len (a_user_strings ai)) (token_index tok)) as [|Li]; [exact I|]. cbn [ret].
  set (d := skipn _ _). assert (Ld : len d < 2 ^ 63) by (unfold d, len in *; rewrite skipn_length; lia). clearbody d.
  assert (B : in_bounds (mkReader d 0)) by (split; [exact Ld|apply N.le_0_l]).
  pose proof (rcu_run p _ B) as R. unfold bind at 1, lift at 1, try_m at 1, blob_reader_new.
  destruct (read_compressed_u32 p (mkReader d 0)) as [n r|e r|w|w|]; [|exact I|destruct R..].
  destruct R as (_ & _ & _ & Ln & _).
  destruct (N.ltb_spec (len d) (rpos r + n)) as [|Lr]; [exact I|].
  set (b := sub_list (rpos r) n d). assert (Lb : len b = n) by (now apply len_sub_list).
  assert (Sb : len b < 2 ^ 30) by lia. clearbody b. clear - Sb.
  unfold lift, try_m, on_reader, read_utf16_str, bind. cbn [rdata].
  assert (Q : len b / 2 * 2 <= len b) by (rewrite N.mul_comm; apply N.mul_div_le; discriminate).
  rewrite read_array_ok; cbn [rdata rpos]; [|unfold slice_ok; change (2 ^ 63) with (2 ^ 30 * 2 ^ 33) in *; lia|lia]. cbn [ret].
  split; [apply TraceFacts.units_bound|].
  assert (C : forall n l, List.length (chunks 2 n l : list (list byte)) = n) by (induction n; intro l; cbn [chunks List.length]; auto).
  unfold len at 1. rewrite map_length, C. lia.
Qed.

(** ** Opcodes *)

Definition byte_list : list byte := map (fun n => nb (N.of_nat n)) (seq 0 256).
Lemma in_byte_list b : In b byte_list.
Proof. apply in_map_iff. exists (N.to_nat (bn b)). pose proof (bn_lt b). rewrite N2Nat.id, nb_bn. split; [reflexivity|]. apply in_seq. lia. Qed.

Definition decodes1 (b : byte) : bool :=
  (0xf8 <? bn b) || match from_u16 (bn b) with Some op => bytes_eqb (opcode_bytes op) [b] | None => true end.
Definition decodes2 (b c : byte) : bool :=
  negb (0xf8 <? bn b) ||
  match from_u16 (N.lor (bn c) (N.shiftl (bn b) 8)) with Some op => bytes_eqb (opcode_bytes op) [b; c] | None => true end.
Lemma decodes1_all : forallb decodes1 byte_list = true.
Proof. vm_compute. reflexivity. Qed.
Lemma decodes2_all : forallb (fun b => forallb (decodes2 b) byte_list) byte_list = true.
Proof. vm_compute. reflexivity. Qed.

Lemma nth_here (code : list byte) ip b : nth_error code (N.to_nat ip) = Some b -> exists pre post, code = pre ++ b :: post /\ ip = len pre.
Proof.
  intro E. destruct (nth_error_split _ _ E) as (pre & post & -> & L). exists pre, post. split; [reflexivity|]. unfold len. lia.
Qed.

Lemma get_opcode_run fr s :
  match get_opcode fr s with
  | Ok (op, fr1) s' => s' = s /\ instruction fr (opcode_bytes op) /\ fr1 = set_ip fr (fr_ip fr + len (opcode_bytes op))
  | Ub _ => False
  | _ => True
  end.
Proof.
  unfold get_opcode, bind, code_at. destruct (nth_error (fr_code fr) (N.to_nat (fr_ip fr))) as [b|] eqn:Eb; [|exact I].
  cbn [ret]. change (opcode_code Prefix7) with 0xf8. destruct (nth_here _ _ _ Eb) as (pre & post & Ec & Ei). clear Eb.
  destruct (0xf8 <? bn b) eqn:L.
  - destruct (nth_error (fr_code fr) (N.to_nat (fr_ip fr + 1))) as [c|] eqn:En; [|exact I]. cbn [ret].
    destruct (from_u16 (N.lor (bn c) (N.shiftl (bn b) 8))) as [op|] eqn:F; [|exact I]. cbn [unwrap ret].
    assert (D : decodes2 b c = true).
    { pose proof decodes2_all as A. rewrite forallb_forall in A. specialize (A b (in_byte_list b)). rewrite forallb_forall in A.
      apply A, in_byte_list. }
    unfold decodes2 in D. rewrite L, F in D. cbn [negb orb] in D. apply bytes_eqb_spec in D. rewrite D.
    split; [reflexivity|]. split; [|reflexivity]. rewrite Ec, Ei in En.
    replace (N.to_nat (len pre + 1)) with (List.length pre + 1)%nat in En by (unfold len; lia).
    rewrite nth_error_app2 in En by lia. replace (List.length pre + 1 - List.length pre)%nat with 1%nat in En by lia. cbn in En.
    destruct post as [|c' post]; [discriminate|]. cbn in En. injection En as ->. exists pre, post. auto.
  - destruct (from_u16 (bn b)) as [op|] eqn:F; [|exact I]. cbn [unwrap ret].
    assert (D : decodes1 b = true).
    { pose proof decodes1_all as A. rewrite forallb_forall in A. apply A, in_byte_list. }
    unfold decodes1 in D. rewrite L, F in D. cbn [orb] in D. apply bytes_eqb_spec in D. rewrite D.
    split; [reflexivity|]. split; [|reflexivity]. exists pre, post. auto.
Qed.

(** ** Triples *)

Definition hoare {A} (P : machine -> Prop) (m : M machine A) (Q : A -> machine -> Prop) : Prop :=
  forall s, P s -> match m s with Ok a s' => Q a s' | Ub _ => False | _ => True end.

Lemma hoare_bind {A B} P (m : M machine A) (k : A -> M machine B) Q R :
  hoare P m Q -> (forall a, hoare (Q a) (k a) R) -> hoare P (bind m k) R.
Proof. intros Hm Hk s Hs. unfold bind. specialize (Hm s Hs). destruct (m s); auto. now apply Hk. Qed.
Lemma hoare_pre {A} (P P' : machine -> Prop) (m : M machine A) Q : (forall s, P' s -> P s) -> hoare P m Q -> hoare P' m Q.
Proof. intros H Hm s Hs. apply Hm. auto. Qed.
Lemma hoare_post {A} P (m : M machine A) (Q Q' : A -> machine -> Prop) : (forall a s, Q a s -> Q' a s) -> hoare P m Q -> hoare P m Q'.
Proof. intros H Hm s Hs. specialize (Hm s Hs). destruct (m s); auto. Qed.
Lemma hoare_ret {A} (P : machine -> Prop) (a : A) (Q : A -> machine -> Prop) : (forall s, P s -> Q a s) -> hoare P (ret a) Q.
Proof. intros H s Hs. now apply H. Qed.
Lemma hoare_fail {A} P e (Q : A -> machine -> Prop) : hoare P (fail e) Q. Proof. intros s _. exact I. Qed.
Lemma hoare_panic {A} P e (Q : A -> machine -> Prop) : hoare P (panic e) Q. Proof. intros s _. exact I. Qed.
Lemma hoare_pure {A} P (m : M machine A) : pure m -> sound m -> hoare P m (fun _ => P).
Proof.
  intros H U s Hs. specialize (H s). specialize (U s). destruct (m s) as [a s1|e s1|w|w|]; auto; [now subst|]. now apply (U w).
Qed.
Lemma hoare_unwrap {A} (P : machine -> Prop) (o : option A) (Q : A -> machine -> Prop) : (forall a, o = Some a -> forall s, P s -> Q a s) -> hoare P (unwrap o) Q.
Proof. intros H s Hs. destruct o; cbn; auto. Qed.

(** ** What is on the heap *)

(** The blocks, with any contents. *)
Inductive shape (ts : list type_info) : list byte -> Prop :=
| object_shape t ti n id fields : nth_error ts t = Some ti -> encodes 4 (ti_id ti) id -> size ts t n -> len fields = n ->
    shape ts ([x00] ++ id ++ fields)
| array_shape t ti n length id eid l es : List.length id = 4%nat -> nth_error ts t = Some ti -> encodes 4 (ti_id ti) eid ->
    size ts t n -> encodes 8 length l -> len es = n * length -> shape ts ([x02] ++ id ++ eid ++ l ++ es)
| string_shape k id l cs : List.length id = 4%nat -> encodes 8 k l -> len cs = 2 * k ->
    shape ts ([x04] ++ id ++ l ++ cs).

Definition points (bl : list (list byte)) (o : obj) : Prop :=
  o_gen o = 0%nat /\ exists i, (i < List.length bl)%nat /\ o_off o = len (concat (firstn i bl)).

(** The values at hand: on the operand stack, in variables and in the host's parameters. *)
Definition values (s : machine) : list value := x_operands s ++ k_cells (x_frames s) ++ x_host s.

(** What can become of a block: the fields of an object and the elements of an array may change, headers and
    strings do not. *)
Inductive aged : list byte -> list byte -> Prop :=
| aged_not b : aged b b
| aged_object id fields fields' : len id = 4 -> len fields' = len fields -> aged ([x00] ++ id ++ fields) ([x00] ++ id ++ fields')
| aged_array hd es es' : len hd = 16 -> len es' = len es -> aged ([x02] ++ hd ++ es) ([x02] ++ hd ++ es').
(** What can become of all the blocks: there may also be new ones behind them. *)
Definition ages (old bl : list (list byte)) : Prop := exists l new, bl = l ++ new /\ Forall2 aged old l.

Lemma aged_len b b' : aged b b' -> len b' = len b.
Proof. intro A. destruct A; rewrite ?len_app; lia. Qed.
Lemma aged_trans a b c : aged a b -> aged b c -> aged a c.
Proof.
  intros A B. destruct A as [b|id f f' Li Lf|hd e e' Lh Le]; [exact B| |].
  - inversion B as [b' E1 E2|id2 g g' Li2 Lg E1 E2|hd g g' Lh Lg E1 E2]; subst.
    + now apply aged_object.
    + apply split_same in E1 as [-> ->]; [|unfold len in *; lia]. apply aged_object; [exact Li|congruence].
  - inversion B as [b' E1 E2|id2 g g' Li2 Lg E1 E2|hd2 g g' Lh2 Lg E1 E2]; subst.
    + now apply aged_array.
    + apply split_same in E1 as [-> ->]; [|unfold len in *; lia]. apply aged_array; [exact Lh|congruence].
Qed.
Lemma ages_not bl : ages bl bl.
Proof. exists bl, []. rewrite app_nil_r. split; [reflexivity|]. induction bl; constructor; auto. apply aged_not. Qed.
Lemma ages_more old bl b : ages old bl -> ages old (bl ++ [b]).
Proof. intros (l & new & -> & F). exists l, (new ++ [b]). now rewrite app_assoc. Qed.
Lemma ages_put old : forall bl i b b', ages old bl -> nth_error bl i = Some b -> aged b b' -> ages old (firstn i bl ++ b' :: skipn (S i) bl).
Proof.
  intros bl i b b' (l & new & -> & F) E A. revert i E. induction F as [|o0 l0 old l A0 F IH]; intros i E.
  - exists [], (firstn i new ++ b' :: skipn (S i) new). split; [reflexivity|constructor].
  - destruct i as [|i]; cbn [nth_error app firstn skipn] in *.
    + injection E as ->. exists (b' :: l), new. split; [reflexivity|]. constructor; [exact (aged_trans _ _ _ A0 A)|exact F].
    + destruct (IH i E) as (l' & new' & E' & F'). exists (l0 :: l'), new'. rewrite E'. split; [reflexivity|]. now constructor.
Qed.

(** The blocks at some moment before. *)
Class snapshot := blocks_before : list (list byte).

Definition Heap {old : snapshot} (ex : list value) (s : machine) : Prop :=
  len (memory s) <= 1024 ->
  h_gen (x_heap s) = 0%nat /\ h_cap (x_heap s) = 1024 /\
  exists bl, memory s = concat bl /\ Forall (shape (c_types (x_vm s))) bl /\
    (forall o, In (VObject o) (ex ++ values s) -> points bl o) /\ ages old bl.

Lemma heap_same {old : snapshot} ex ex' s s' : Heap ex s -> x_heap s' = x_heap s -> c_types (x_vm s') = c_types (x_vm s) ->
  (forall o, In (VObject o) (ex' ++ values s') -> In (VObject o) (ex ++ values s)) -> Heap ex' s'.
Proof.
  intros H E T V L. unfold memory in *. rewrite E in *. destruct (H L) as (G & C & bl & M & F & Pt & Ag).
  split; [exact G|]. split; [exact C|]. exists bl. rewrite T. auto 10.
Qed.

Definition number_value (v : value) : Prop := forall o, v <> VObject o.

Ltac ins := unfold values in *; cbn in *; rewrite ?in_app_iff in *; cbn in *; rewrite ?in_app_iff in *; intuition (subst; auto).

Section Instructions.
  Context {old : snapshot}.
  Variables (p : profile) (loc arg : cells).

  Definition vm_ok (v : vm) : Prop := ready p v /\ vectors v.
  Definition Inv (ex : list value) (s : machine) : Prop :=
    vm_ok (x_vm s) /\ Heap ex s /\ current s loc /\ current s arg.
  (** After the instruction. *)
  Definition After (ex : list value) (s : machine) : Prop := vm_ok (x_vm s) /\ Heap ex s.
  Definition out (o : outcome) : list value :=
    match o with OReturn (Some v) => [v] | OCall _ _ (Some v) _ => [v] | _ => [] end.

  Lemma inv_less ex ex' s : Inv ex s -> (forall o, In (VObject o) ex' -> In (VObject o) ex) -> Inv ex' s.
  Proof.
    intros (V & H & L & A) X. split; [exact V|]. split; [|auto]. eapply heap_same; eauto.
    intros o Ho. rewrite in_app_iff in *. intuition.
  Qed.
  Lemma inv_number ex v s : Inv ex s -> number_value v -> Inv (v :: ex) s.
  Proof. intros H N. eapply inv_less; [exact H|]. intros o [E|E]; [now apply N in E|exact E]. Qed.

  Lemma h_try_pop ex : hoare (Inv ex) try_pop (fun v => Inv (then_push ex v)).
  Proof.
    intros s (V & H & L & A). unfold try_pop. destruct (x_operands s) as [|v l] eqn:E; [split; auto|].
    split; [exact V|]. split; [|auto]. eapply heap_same; eauto. intros o Ho. unfold values. rewrite E. ins.
  Qed.
  Lemma h_pop ex : hoare (Inv ex) pop (fun v => Inv (v :: ex)).
  Proof. eapply hoare_bind; [apply h_try_pop|]. intros [v|]; [now apply hoare_ret|apply hoare_panic]. Qed.
  Lemma h_push ex v : hoare (Inv (v :: ex)) (push v) (fun _ => Inv ex).
  Proof.
    intros s (V & H & L & A). split; [exact V|]. split; [|auto]. eapply heap_same; eauto. intros o Ho. ins.
  Qed.
  Lemma h_cell_get ex c i : c = loc \/ c = arg -> hoare (Inv ex) (cell_get c i) (fun v => Inv (v :: ex)).
  Proof.
    intros Hc s H. pose proof H as (V & Hp & L & A). assert (Cu : current s c) by (destruct Hc; now subst). clear Hc.
    assert (K : forall v, In v (values s) -> Inv (v :: ex) s).
    { intros v Hv. split; [exact V|]. split; [|auto]. eapply heap_same; eauto. intros o Ho. ins. }
    unfold cell_get. destruct c as [|g base n].
    - destruct (nth_error (x_host s) (N.to_nat i)) as [v|] eqn:E; [|exact I]. apply K. unfold values. rewrite !in_app_iff.
      apply nth_error_In in E. auto.
    - destruct (N.leb_spec n i); [exact I|]. destruct Cu as [-> Cu]. rewrite Nat.eqb_refl. cbn [negb].
      destruct (nth_error (k_cells (x_frames s)) (N.to_nat (base + i))) as [v|] eqn:E.
      + apply K. unfold values. rewrite !in_app_iff. apply nth_error_In in E. auto.
      + apply nth_error_None in E. unfold in_use, len in Cu. lia.
  Qed.
  Lemma in_update {A} (l : list A) : forall i v x, In x (Runtime.update l i (fun _ => v)) -> x = v \/ In x l.
  Proof.
    induction l as [|a l IH]; intros [|i] v x; cbn; auto; intros [E|E]; auto. destruct (IH _ _ _ E); auto.
  Qed.
  Lemma h_cell_set ex c i v : c = loc \/ c = arg -> hoare (Inv (v :: ex)) (cell_set c i v) (fun _ => Inv ex).
  Proof.
    intros Hc s (V & H & L & A). assert (Cu : current s c) by (destruct Hc; now subst). clear Hc.
    unfold cell_set. destruct c as [|g base n].
    - destruct (len (x_host s) <=? i); [exact I|]. split; [exact V|]. split; [|auto]. eapply heap_same; eauto. intros o Ho.
      unfold values in *. cbn in *. rewrite !in_app_iff in *. destruct Ho as [Ho|[Ho|[Ho|Ho]]]; auto.
      apply in_update in Ho. intuition.
    - cbv zeta. destruct (N.leb_spec n i); [exact I|]. destruct Cu as [-> Cu]. rewrite Nat.eqb_refl. cbn [negb].
      destruct (N.leb_spec (len (k_cells (x_frames s))) (base + i)); [unfold in_use in Cu; lia|].
      split; [exact V|]. split; [|split].
      + eapply heap_same; eauto. intros o Ho. unfold values in *. cbn in *. rewrite !in_app_iff in *.
        destruct Ho as [Ho|[Ho|[Ho|Ho]]]; auto. apply in_update in Ho. intuition.
      + eapply current_later; [exact L|reflexivity|]. unfold in_use. cbn. unfold len. rewrite CallFacts.update_length. lia.
      + eapply current_later; [exact A|reflexivity|]. unfold in_use. cbn. unfold len. rewrite CallFacts.update_length. lia.
  Qed.
  Lemma h_vm {A} ex (m : M vm A) : pure m -> sound m -> hoare (Inv ex) (on_vm m) (fun _ => Inv ex).
  Proof. intros P U. apply hoare_pure; [now apply pure_on_vm|now apply sound_on_vm]. Qed.

  (** Operators. *)
  Definition calm (m : M machine value) : Prop :=
    forall s, match m s with Ok v s' => s' = s /\ number_value v | Ub _ => False | _ => True end.
  Lemma calm_binary w f o a b : (forall t x y, calm (f t x y)) -> calm (binary w f o a b).
  Proof.
    intros H s. destruct a, b; cbn; try exact I.
    - destruct (ity_eqb _ _); [apply H|exact I].
    - destruct o; cbn; [split; [reflexivity|discriminate]|exact I].
    - destruct o; cbn; [split; [reflexivity|discriminate]|exact I].
  Qed.
  Lemma calm_int t x : calm (ret (VInt t x)). Proof. intro s. split; [reflexivity|discriminate]. Qed.
  Lemma calm_arith t x : calm (arith p t x).
  Proof. unfold arith. destruct (in_ity t x); [apply calm_int|]. destruct p; [intro s; exact I|apply calm_int]. Qed.
  Lemma calm_div t x y : calm (int_div t x y).
  Proof. unfold int_div. destruct (_ =? _)%Z; [intro s; exact I|]. destruct (in_ity _ _); [apply calm_int|intro s; exact I]. Qed.
  Lemma calm_rem t x y : calm (int_rem t x y).
  Proof. unfold int_rem. destruct (_ =? _)%Z; [intro s; exact I|]. destruct (in_ity _ _); [apply calm_int|intro s; exact I]. Qed.
  Lemma calm_shift t y (f : Z -> Z) : calm (n <- shift_amount p t y ;; ret (VInt t (f n))).
  Proof. intro s. unfold bind, shift_amount. destruct (_ && _)%bool; [split; [reflexivity|discriminate]|]. destruct p; [exact I|split; [reflexivity|discriminate]]. Qed.
  Lemma calm_neg a : calm (v_neg p a).
  Proof.
    intro s. destruct a; cbn; try exact I; try (split; [reflexivity|discriminate]). destruct (isigned t); [apply calm_arith|exact I].
  Qed.
  Lemma calm_not a : calm (v_not a).
  Proof. intro s. destruct a; cbn; try exact I. split; [reflexivity|discriminate]. Qed.
  Lemma h_calm ex (m : M machine value) : calm m -> hoare (Inv ex) m (fun v => Inv (v :: ex)).
  Proof. intros C s H. specialize (C s). destruct (m s); auto. destruct C as [-> N]. now apply inv_number. Qed.

  Lemma sound_v_cmp (f : option comparison -> bool) a b : @sound machine _ (c <- v_cmp a b ;; ret (f c)).
  Proof.
    apply sound_bind; [|intro; apply sound_ret]. intros s w. destruct a, b; cbn; try discriminate. destruct (ity_eqb _ _); discriminate.
  Qed.
  Lemma sound_null v : @sound machine _ (is_null_or_zero v).
  Proof. intros s w. destruct v; discriminate. Qed.

  (** ** Instructions that only move values *)

  Definition Post (ex : list value) (o : outcome) (s : machine) : Prop := After (out o ++ ex) s.
  Lemma h_next ex fr : hoare (Inv ex) (next fr) (Post ex).
  Proof. apply hoare_ret. intros s (V & H & _). split; assumption. Qed.
  Lemma h_push_next ex fr v : hoare (Inv (v :: ex)) (push v ;;; next fr) (Post ex).
  Proof. eapply hoare_bind; [apply h_push|intros []; apply h_next]. Qed.
  Lemma h_ldc ex fr v : number_value v -> hoare (Inv ex) (ldc fr v) (Post ex).
  Proof. intro N. eapply hoare_pre; [|apply h_push_next]. intros s H. now apply inv_number. Qed.
  Lemma h_ld ex fr c i : c = loc \/ c = arg -> hoare (Inv ex) (ld fr c i) (Post ex).
  Proof. intro Hc. eapply hoare_bind; [now apply h_cell_get|intro v; apply h_push_next]. Qed.
  Lemma h_st ex fr c i : c = loc \/ c = arg -> hoare (Inv ex) (st fr c i) (Post ex).
  Proof. intro Hc. eapply hoare_bind; [apply h_pop|intro v]. eapply hoare_bind; [now apply h_cell_set|intros []; apply h_next]. Qed.

  Definition whole (fr : frame) (n : N) : Prop := fr_ip fr + n <= len (fr_code fr).
  Lemma h_il_get {A} P fr n (k : N * frame -> M machine A) Q : whole fr n ->
    (forall x fr', hoare P (k (x, fr')) Q) -> hoare P (bind (il_get fr n) k) Q.
  Proof.
    intros W H s Hs. unfold bind, il_get. destruct (N.leb_spec (fr_ip fr + n) (len (fr_code fr))); [|unfold whole in W; lia].
    now apply H.
  Qed.
  Lemma h_il_signed {A} P fr n (k : Z * frame -> M machine A) Q : whole fr n ->
    (forall x fr', hoare P (k (x, fr')) Q) -> hoare P (bind (il_signed fr n) k) Q.
  Proof.
    intros W H s Hs. unfold bind, il_signed, bind, il_get. destruct (N.leb_spec (fr_ip fr + n) (len (fr_code fr))); [|unfold whole in W; lia].
    now apply H.
  Qed.
  Lemma h_br_if ex n fr z : whole fr n -> hoare (Inv ex) (br_if n fr z) (Post ex).
  Proof.
    intro W. apply h_il_signed; [exact W|]. intros x fr'. eapply hoare_bind; [apply h_pop|intro v].
    eapply hoare_bind; [apply hoare_pure; [apply pure_is_null_or_zero|apply sound_null]|intro b].
    eapply hoare_pre; [|apply h_next]. intros s H. eapply inv_less; [exact H|]. intros o Ho. now right.
  Qed.
  Lemma h_br_cmp ex n fr (t : value -> value -> M machine bool) : whole fr n -> (forall a b, pure (t a b)) -> (forall a b, sound (t a b)) ->
    hoare (Inv ex) (br_cmp n fr t) (Post ex).
  Proof.
    intros W Pt St. eapply hoare_bind; [apply h_pop|intro a]. eapply hoare_bind; [apply h_pop|intro b].
    apply h_il_signed; [exact W|]. intros x fr'. eapply hoare_bind; [apply hoare_pure; [apply Pt|apply St]|intro c].
    eapply hoare_pre; [|apply h_next]. intros s H. eapply inv_less; [exact H|]. intros o Ho. now do 2 right.
  Qed.
  Lemma h_compare ex fr (t : value -> value -> M machine bool) : (forall a b, pure (t a b)) -> (forall a b, sound (t a b)) ->
    hoare (Inv ex) (compare fr t) (Post ex).
  Proof.
    intros Pt St. eapply hoare_bind; [apply h_pop|intro a]. eapply hoare_bind; [apply h_pop|intro b].
    eapply hoare_bind; [apply hoare_pure; [apply Pt|apply St]|intro c].
    eapply hoare_pre; [|apply (h_ldc ex); discriminate]. intros s H. eapply inv_less; [exact H|]. intros o Ho. now do 2 right.
  Qed.
  Lemma h_op2 ex fr f : (forall a b, calm (f a b)) -> hoare (Inv ex) (op2 fr f) (Post ex).
  Proof.
    intro C. eapply hoare_bind; [apply h_pop|intro a]. eapply hoare_bind; [apply h_pop|intro b].
    eapply hoare_bind; [apply h_calm, C|intro v]. eapply hoare_pre; [|apply h_push_next]. intros s H.
    eapply inv_less; [exact H|]. intros o [->|Ho]; [now left|now do 3 right].
  Qed.
  Lemma h_op1 ex fr f : (forall a, calm (f a)) -> hoare (Inv ex) (op1 fr f) (Post ex).
  Proof.
    intro C. eapply hoare_bind; [apply h_pop|intro a].
    eapply hoare_bind; [apply h_calm, C|intro v]. eapply hoare_pre; [|apply h_push_next]. intros s H.
    eapply inv_less; [exact H|]. intros o [->|Ho]; [now left|now do 2 right].
  Qed.
  Lemma h_peek ex : hoare (Inv ex) peek_top (fun v => Inv (v :: ex)).
  Proof.
    intros s (V & H & L & A). unfold peek_top. destruct (x_operands s) as [|v l] eqn:E; [exact I|]. split; [exact V|]. split; [|auto].
    eapply heap_same; eauto. intros o Ho. unfold values in *. rewrite E in *. ins.
  Qed.
  Lemma h_ret ex fr : hoare (Inv ex) (ret_op fr) (Post ex).
  Proof.
    eapply hoare_bind; [apply h_vm; [apply pure_get_type|apply sound_get_type]|intro o].
    apply hoare_bind with (Q := fun _ => Inv ex).
    - destruct o; [apply h_vm; [apply pure_type_eq|apply sound_type_eq]|now apply hoare_ret].
    - intros [|].
      + apply hoare_ret. intros s (V & H & _). split; assumption.
      + eapply hoare_bind; [apply h_try_pop|intro v]. apply hoare_ret. intros s (V & H & _). split; [exact V|]. now destruct v.
  Qed.

  (** Calls: the new cells are those of the current buffer. *)
  Lemma h_pop_args ex g base n : forall k s, (N.of_nat k <= n) -> After ex s -> g = k_gen (x_frames s) -> base + n <= in_use s ->
    match pop_args (CFrames g base n) k s with Ok _ s' => After ex s' | Ub _ => False | _ => True end.
  Proof.
    induction k as [|k IH]; intros s Hk Hs Hg Hu; cbn [pop_args]; [exact Hs|].
    unfold bind at 1. destruct (pop s) as [v s1|e s1|w|w|] eqn:E; try exact I.
    - apply pop_inv in E. destruct E as (l & Eo & ->). unfold bind, cell_set. cbv zeta.
      destruct (N.leb_spec n (N.of_nat k)); [exact I|]. cbn [set_operands x_frames]. rewrite Hg, Nat.eqb_refl. cbn [negb].
      destruct (N.leb_spec (len (k_cells (x_frames s))) (base + N.of_nat k)); [unfold in_use in Hu; lia|].
      rewrite <- Hg. apply IH; [lia| |reflexivity|].
      + destruct Hs as [V H']. split; [exact V|]. eapply heap_same; eauto. intros o Ho. unfold values in *. rewrite Eo. cbn in *.
        rewrite !in_app_iff in *. cbn. rewrite !in_app_iff. destruct Ho as [Ho|[Ho|[Ho|Ho]]]; auto.
        apply in_update in Ho. intuition.
      + unfold in_use in *. cbn. unfold len in *. now rewrite CallFacts.update_length.
    - unfold pop, bind, try_pop in E. destruct (x_operands s); discriminate.
  Qed.
  Lemma h_method_call ex fr tok r : hoare (After (match r with Some v => [v] | None => [] end ++ ex)) (method_call p fr tok r) (Post ex).
  Proof.
    unfold method_call. eapply hoare_bind.
    { apply hoare_pure; [apply pure_on_vm, pure_resolve_method|apply sound_on_vm, sound_resolve_method]. }
    intros [m|]; [|apply hoare_fail]. cbv zeta. set (n := if mt_static m then _ else _). intros s Hs. unfold bind at 1.
    destruct (stackalloc_run n s) as (s1 & E & C & _ & Hh & Hv & Hp & Ho & _). rewrite E.
    assert (U : in_use s1 = in_use s + n) by (unfold in_use; rewrite C, len_app, len_repeat; lia).
    assert (H1 : After (match r with Some v => [v] | None => [] end ++ ex) s1).
    { destruct Hs as [V H]. split; [now rewrite Hv|]. eapply heap_same; eauto; [now rewrite Hv|]. intros o. unfold values.
      rewrite Ho, Hh, C, !in_app_iff. intros [X|[X|[[X|X]|X]]]; auto 6. apply repeat_spec in X. discriminate X. }
    pose proof (h_pop_args _ (k_gen (x_frames s1)) (len (k_cells (x_frames s))) n (N.to_nat n) s1 ltac:(lia) H1 eq_refl) as K.
    unfold in_use in U, K. specialize (K ltac:(lia)).
    unfold bind. destruct (pop_args _ _ s1) as [[] s2|e s2|w|w|]; auto.
  Qed.
End Instructions.
