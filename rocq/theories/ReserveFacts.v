(** Lemmas about the room asked for in advance. *)
From Coq Require Import NArith String List Bool Lia.
From Coq.Strings Require Import Byte.
From Verif Require Import Base BinaryReader ParseSpec BaseFacts ReaderFacts Tables TablesTotal Blob SpecBlob BlobProofs
  Reserve SpecReserve.
Import ListNotations.
Open Scope N_scope.

(** ** The notes change nothing else *)

Definition same {A} (m' : M asked A) (m : M reader A) : Prop :=
  forall s, strip (m' s) = m (a_reader s).

Lemma same_bind {A B} m' m (k' : A -> M asked B) k :
  same m' m -> (forall a, same (k' a) (k a)) -> same (bind m' k') (bind m k).
Proof.
  intros H1 H2 s. specialize (H1 s). unfold bind. rewrite <- H1.
  destruct (m' s) as [a s'|e s'| | |]; cbn [strip]; try reflexivity. apply H2.
Qed.
Lemma same_ret {A} (a : A) : same (ret a) (ret a).
Proof. intro s. reflexivity. Qed.
Lemma same_fail {A} e : same (@fail asked A e) (fail e).
Proof. intro s. reflexivity. Qed.
Lemma same_nofuel {A} : same (@nofuel asked A) nofuel.
Proof. intro s. reflexivity. Qed.
Lemma same_quiet {A} (m : M reader A) : same (quietly m) m.
Proof. intro s. unfold quietly. destruct (m (a_reader s)); reflexivity. Qed.
Lemma same_ask {A} n (m' : M asked A) m : same m' m -> same (ask n ;;; m') m.
Proof. intros H s. unfold bind, ask. rewrite H. reflexivity. Qed.
Lemma same_repeat {A} n (m' : M asked A) m : same m' m -> same (repeat_m n m') (repeat_m n m).
Proof.
  intro H. induction n as [|n IH]; cbn [repeat_m]; [apply same_ret|].
  apply same_bind; [exact H|intro]. apply same_bind; [exact IH|intro]. apply same_ret.
Qed.

Lemma same_table {A} E t (row : M reader A) : same (table_asking E t row) (read_table E t row).
Proof. apply same_ask, same_quiet. Qed.

Lemma same_tables p E : same (tables_asking p E) (read_tables p E).
Proof. unfold tables_asking, read_tables. repeat (apply same_bind; [apply same_table|intro]). apply same_ret. Qed.

Lemma bind_assoc_at {S A B C} (m : M S A) (f : A -> M S B) (g : B -> M S C) s :
  bind (bind m f) g s = bind m (fun a => bind (f a) g) s.
Proof. unfold bind. destruct (m s); reflexivity. Qed.

Lemma stream_split p r : read_table_stream p r = bind (stream_header p) (read_tables p) r.
Proof.
  unfold read_table_stream, stream_header. cbv zeta.
  repeat (rewrite bind_assoc_at; unfold bind at 1; symmetry; unfold bind at 1;
          match goal with |- match ?m with _ => _ end = match ?m with _ => _ end => destruct m; try reflexivity end;
          symmetry).
Qed.

Lemma same_stream p : same (stream_asking p) (read_table_stream p).
Proof.
  intro s. rewrite stream_split. revert s. apply same_bind; [apply same_quiet|intro; apply same_tables].
Qed.

Lemma same_shape p : same (array_shape_asking p) (read_array_shape p).
Proof.
  unfold array_shape_asking, read_array_shape.
  do 2 (apply same_bind; [apply same_quiet|intro]). apply same_ask.
  apply same_bind; [apply same_repeat, same_quiet|intro].
  apply same_bind; [apply same_quiet|intro]. apply same_ask.
  apply same_bind; [apply same_repeat, same_quiet|intro]. apply same_ret.
Qed.

Ltac same_arm IH :=
  match goal with
  | |- same (ret _) _ => apply same_ret
  | |- same (fail _) _ => apply same_fail
  | |- same (bind (quietly _) _) _ => apply same_bind; [apply same_quiet|intro; same_arm IH]
  | |- same (bind (ask _) _) _ => apply same_ask; same_arm IH
  | |- same (bind (repeat_m _ _) _) _ => apply same_bind; [apply same_repeat, IH|intro; same_arm IH]
  | |- same (bind (array_shape_asking _) _) _ => apply same_bind; [apply same_shape|intro; same_arm IH]
  | |- same (bind _ _) _ => apply same_bind; [apply IH|intro; same_arm IH]
  end.

Lemma same_element_f p f : same (element_asking_f f p) (element_type_f f p).
Proof.
  induction f as [|f IH]; [apply same_nofuel|]. cbn [element_asking_f element_type_f].
  apply same_bind; [apply same_quiet|intro b].
  destruct b as [|b]; [apply same_fail|].
  do 7 (try (destruct b as [b|b|]; try (same_arm IH))).
Qed.

Lemma same_element p : same (element_asking p) (read_element_type p).
Proof. intro s. apply same_element_f. Qed.

Lemma same_method_signature p : same (method_signature_asking p) (read_method_signature p).
Proof.
  unfold method_signature_asking, read_method_signature.
  apply same_bind; [apply same_quiet|intro next]. cbv zeta.
  apply same_bind; [destruct (has next 0x10); [apply same_quiet|apply same_ret]|intro].
  apply same_bind; [apply same_quiet|intro]. apply same_bind; [apply same_element|intro].
  apply same_ask. apply same_bind; [apply same_repeat, same_element|intro]. apply same_ret.
Qed.

Lemma same_property_signature p : same (property_signature_asking p) (read_property_signature p).
Proof.
  unfold property_signature_asking, read_property_signature.
  apply same_bind; [apply same_quiet|intro next]. destruct (negb _); [apply same_fail|]. cbv zeta.
  apply same_bind; [apply same_quiet|intro]. apply same_bind; [apply same_element|intro].
  apply same_ask. apply same_bind; [apply same_repeat, same_element|intro]. apply same_ret.
Qed.

Lemma same_method_spec p : same (method_spec_asking p) (read_method_spec_sig p).
Proof.
  unfold method_spec_asking, read_method_spec_sig.
  apply same_bind; [apply same_quiet|intro next]. destruct (negb _); [apply same_fail|].
  apply same_bind; [apply same_quiet|intro]. apply same_ask. apply same_repeat, same_element.
Qed.

(** ** How many bytes are read *)

(** A value costs at least [k] bytes. *)
Definition takes {A} (k : N) (m : M reader A) : Prop :=
  forall r a r', in_bounds r -> m r = Ok a r' ->
    rdata r' = rdata r /\ rpos r + k <= rpos r' /\ rpos r' <= len (rdata r).

Lemma takes_bind {A B} j k (m : M reader A) (f : A -> M reader B) :
  takes j m -> (forall a, takes (k - j) (f a)) -> takes k (bind m f).
Proof.
  intros H1 H2 r b r2 B0 E. apply bind_inv_ok in E as (a & r1 & E1 & E2).
  destruct (H1 _ _ _ B0 E1) as (D1 & P1 & L1). destruct B0 as [S0 P0].
  assert (B1 : in_bounds r1) by (split; rewrite D1; [exact S0|exact L1]).
  destruct (H2 _ _ _ _ B1 E2) as (D2 & P2 & L2). rewrite D1 in *. repeat split; try assumption; lia.
Qed.
Lemma takes_ret {A} k (a : A) : k = 0 -> takes k (ret a).
Proof. intros -> r x r' [S0 P0] E. injection E as _ <-. repeat split; try assumption; lia. Qed.
Lemma takes_fail {A} k e : takes k (@fail reader A e).
Proof. intros r x r' _ E. discriminate E. Qed.
Lemma takes_less {A} j k (m : M reader A) : takes j m -> k <= j -> takes k m.
Proof. intros H L r a r' B0 E. destruct (H _ _ _ B0 E) as (D & P & Q). repeat split; try assumption; lia. Qed.
Lemma takes_rd p n e : n < 2 ^ 32 -> takes n (rd p n e).
Proof.
  intros Hn r a r' [S0 P0] E. assert (S1 := S0). unfold slice_ok in S1. rewrite pow63 in S1. rewrite pow32 in Hn.
  apply rd_ok_inv in E as (L & _ & ->); [|exact S0|rewrite pow64; lia]. cbn [rdata rpos]. repeat split; lia.
Qed.
Lemma takes_read p n : n < 2 ^ 32 -> takes 0 (read p n).
Proof.
  intros Hn r a r' [S0 P0] E. assert (S1 := S0). unfold slice_ok in S1. rewrite pow63 in S1. rewrite pow32 in Hn.
  destruct (N.le_gt_cases (rpos r + n) (len (rdata r))) as [L|L].
  - rewrite read_ok in E by assumption. injection E as _ <-. cbn [rdata rpos]. repeat split; lia.
  - rewrite read_none in E; [|exact L|rewrite pow64; lia]. injection E as _ <-. repeat split; lia.
Qed.
Lemma takes_ok_or {A} (o : option A) e : takes 0 (ok_or o e).
Proof. destruct o; [apply takes_ret; reflexivity|apply takes_fail]. Qed.
Lemma takes_index p wide : takes 2 (read_index p wide).
Proof.
  unfold read_index. destruct wide.
  - apply (takes_less 4); [apply takes_rd; reflexivity|lia].
  - apply takes_rd. reflexivity.
Qed.
Lemma takes_coded p wide mask f e : takes 2 (read_coded p wide mask f e).
Proof.
  unfold read_coded. eapply takes_bind; [apply takes_index|intro d].
  destruct (f _); [apply takes_ret; reflexivity|apply takes_fail].
Qed.
Lemma takes_rcu p : takes 1 (read_compressed_u32 p).
Proof. intros r a r' B0 E. pose proof (rcu_run p r B0) as H. rewrite E in H. destruct H as (D & P & L & _). repeat split; try assumption; lia. Qed.
Lemma takes_repeat {A} n k (m : M reader A) : takes k m -> takes (N.of_nat n * k) (repeat_m n m).
Proof.
  intro H. induction n as [|n IH]; cbn [repeat_m]; [apply takes_ret; lia|].
  eapply takes_bind; [exact H|intro]. apply (takes_less (N.of_nat n * k)); [|lia].
  apply (takes_less (N.of_nat n * k)); [|lia].
  eapply takes_bind; [exact IH|intro]. apply takes_ret. lia.
Qed.

Ltac takes_step :=
  match goal with
  | |- takes _ (ret _) => apply takes_ret; reflexivity
  | |- takes _ (bind (read _ _) _) => eapply takes_bind; [apply takes_read; reflexivity|intro]
  | |- takes _ (bind (rd _ _ _) _) => eapply takes_bind; [apply takes_rd; reflexivity|intro]
  | |- takes _ (bind (attr _) _) => eapply takes_bind; [apply takes_ok_or|intro]
  | |- takes _ (bind (ok_or _ _) _) => eapply takes_bind; [apply takes_ok_or|intro]
  | |- takes _ (bind _ _) => eapply takes_bind; [first [apply takes_index|apply takes_coded]|intro]
  end.

(** After a step past the end nothing can be read. *)
Lemma rd_past p n e r v r' : len (rdata r) < rpos r -> rpos r < 2 ^ 63 + 2 ^ 32 -> n < 2 ^ 32 -> rd p n e r = Ok v r' -> False.
Proof.
  intros L B Hn E. rewrite pow63, pow32 in *. unfold rd, bind in E.
  rewrite read_none in E; [discriminate E|lia|rewrite pow64; lia].
Qed.
Lemma takes_advance {A} p n k (f : bool -> M reader A) : n < 2 ^ 32 -> (forall b, takes k (f b)) ->
  (forall b r, len (rdata r) < rpos r -> rpos r < 2 ^ 63 + 2 ^ 32 -> forall x r', f b r = Ok x r' -> False) ->
  takes k (bind (advance p n) f).
Proof.
  intros Hn H1 H2 r a r' [S0 P0] E. assert (S1 := S0). unfold slice_ok in S1. rewrite pow63, pow32 in *.
  apply bind_inv_ok in E as (b & r1 & E1 & E2). rewrite advance_ok in E1 by (rewrite pow64; lia). injection E1 as _ <-.
  destruct (N.le_gt_cases (rpos r + n) (len (rdata r))) as [L|L].
  - destruct (H1 b (mkReader (rdata r) (rpos r + n)) _ _ (conj S0 L) E2) as (D & P & Q). cbn [rdata rpos] in *. repeat split; try assumption; lia.
  - exfalso. apply (H2 b _) in E2; cbn [rdata rpos]; try assumption; lia.
Qed.

Lemma takes_module p E : takes 2 (read_module p E).
Proof. unfold read_module. repeat takes_step. Qed.
Lemma takes_type_ref p E : takes 2 (read_type_ref p E).
Proof. unfold read_type_ref. repeat takes_step. Qed.
Lemma takes_type_def p E : takes 2 (read_type_def p E).
Proof. unfold read_type_def. repeat takes_step. Qed.
Lemma takes_field p E : takes 2 (read_field p E).
Proof. unfold read_field. repeat takes_step. Qed.
Lemma takes_method_def p E : takes 2 (read_method_def p E).
Proof. unfold read_method_def. repeat takes_step. Qed.
Lemma takes_param p E : takes 2 (read_param p E).
Proof. unfold read_param. repeat takes_step. Qed.
Lemma takes_interface_impl p E : takes 2 (read_interface_impl p E).
Proof. unfold read_interface_impl. repeat takes_step. Qed.
Lemma takes_member_ref p E : takes 2 (read_member_ref p E).
Proof. unfold read_member_ref. repeat takes_step. Qed.
Lemma takes_constant p E : takes 2 (read_constant p E).
Proof.
  unfold read_constant. do 2 takes_step. apply takes_advance.
  - reflexivity.
  - intros _. repeat takes_step.
  - intros _ r P Q x r' F. apply bind_inv_ok in F as (y & r1 & F & _). unfold read_has_constant_handle, read_coded in F.
    apply bind_inv_ok in F as (z & r2 & F & _). unfold read_index in F.
    destruct (wide_has_constant E); apply rd_past in F; try assumption; reflexivity.
Qed.
Lemma takes_custom_attribute p E : takes 2 (read_custom_attribute p E).
Proof. unfold read_custom_attribute. repeat takes_step. Qed.
Lemma takes_field_marshal p E : takes 2 (read_field_marshal p E).
Proof. unfold read_field_marshal. repeat takes_step. Qed.
Lemma takes_decl_security p E : takes 2 (read_decl_security p E).
Proof. unfold read_decl_security. repeat takes_step. Qed.
Lemma takes_class_layout p E : takes 2 (read_class_layout p E).
Proof. unfold read_class_layout. repeat takes_step. Qed.
Lemma takes_field_layout p E : takes 2 (read_field_layout p E).
Proof. unfold read_field_layout. repeat takes_step. Qed.
Lemma takes_standalone_sig p E : takes 2 (read_standalone_sig p E).
Proof. unfold read_standalone_sig. repeat takes_step. Qed.
Lemma takes_event_map p E : takes 2 (read_event_map p E).
Proof. unfold read_event_map. repeat takes_step. Qed.
Lemma takes_event p E : takes 2 (read_event p E).
Proof. unfold read_event. repeat takes_step. Qed.
Lemma takes_property_map p E : takes 2 (read_property_map p E).
Proof. unfold read_property_map. repeat takes_step. Qed.
Lemma takes_property p E : takes 2 (read_property p E).
Proof. unfold read_property. repeat takes_step. Qed.
Lemma takes_method_semantics p E : takes 2 (read_method_semantics p E).
Proof. unfold read_method_semantics. repeat takes_step. Qed.
Lemma takes_method_impl p E : takes 2 (read_method_impl p E).
Proof. unfold read_method_impl. repeat takes_step. Qed.
Lemma takes_module_ref p E : takes 2 (read_module_ref p E).
Proof. unfold read_module_ref. repeat takes_step. Qed.
Lemma takes_type_spec p E : takes 2 (read_type_spec p E).
Proof. unfold read_type_spec. repeat takes_step. Qed.
Lemma takes_impl_map p E : takes 2 (read_impl_map p E).
Proof. unfold read_impl_map. repeat takes_step. Qed.
Lemma takes_field_rva p E : takes 2 (read_field_rva p E).
Proof. unfold read_field_rva. repeat takes_step. Qed.
Lemma takes_assembly p E : takes 2 (read_assembly p E).
Proof. unfold read_assembly. repeat takes_step. Qed.
Lemma takes_assembly_processor p E : takes 2 (read_assembly_processor p E).
Proof. unfold read_assembly_processor. repeat takes_step. Qed.
Lemma takes_assembly_os p E : takes 2 (read_assembly_os p E).
Proof. unfold read_assembly_os. repeat takes_step. Qed.
Lemma takes_assembly_ref p E : takes 2 (read_assembly_ref p E).
Proof. unfold read_assembly_ref. repeat takes_step. Qed.
Lemma takes_assembly_ref_processor p E : takes 2 (read_assembly_ref_processor p E).
Proof. unfold read_assembly_ref_processor. repeat takes_step. Qed.
Lemma takes_assembly_ref_os p E : takes 2 (read_assembly_ref_os p E).
Proof. unfold read_assembly_ref_os. repeat takes_step. Qed.
Lemma takes_file p E : takes 2 (read_file p E).
Proof. unfold read_file. repeat takes_step. Qed.
Lemma takes_exported_type p E : takes 2 (read_exported_type p E).
Proof. unfold read_exported_type. repeat takes_step. Qed.
Lemma takes_manifest_resource p E : takes 2 (read_manifest_resource p E).
Proof. unfold read_manifest_resource. repeat takes_step. Qed.
Lemma takes_nested_class p E : takes 2 (read_nested_class p E).
Proof. unfold read_nested_class. repeat takes_step. Qed.
Lemma takes_generic_param p E : takes 2 (read_generic_param p E).
Proof. unfold read_generic_param. repeat takes_step. Qed.
Lemma takes_method_spec p E : takes 2 (read_method_spec p E).
Proof. unfold read_method_spec. repeat takes_step. Qed.
Lemma takes_generic_param_constraint p E : takes 2 (read_generic_param_constraint p E).
Proof. unfold read_generic_param_constraint. repeat takes_step. Qed.

(** ** What the requests come to *)

(** A value costs at least [k] bytes, and one more for everything asked for on the way. *)
Definition pays {A} (k : N) (m : M asked A) : Prop :=
  forall s a s', in_bounds (a_reader s) -> m s = Ok a s' ->
    rdata (a_reader s') = rdata (a_reader s) /\
    exists more, a_log s' = more ++ a_log s /\
      rpos (a_reader s) + k + sum_of more <= rpos (a_reader s') /\ rpos (a_reader s') <= len (rdata (a_reader s)).

Lemma sum_of_app a b : sum_of (a ++ b) = sum_of a + sum_of b.
Proof. unfold sum_of. induction a as [|x a IH]; cbn [app fold_right]; lia. Qed.

Lemma pays_bind {A B} j k (m : M asked A) (f : A -> M asked B) :
  pays j m -> (forall a, pays (k - j) (f a)) -> pays k (bind m f).
Proof.
  intros H1 H2 s b s2 B0 E. apply bind_inv_ok in E as (a & s1 & E1 & E2).
  destruct (H1 _ _ _ B0 E1) as (D1 & l1 & G1 & P1 & L1). destruct B0 as [S0 P0].
  assert (B1 : in_bounds (a_reader s1)) by (split; rewrite D1; [exact S0|exact L1]).
  destruct (H2 _ _ _ _ B1 E2) as (D2 & l2 & G2 & P2 & L2). rewrite D1 in *. split; [exact D2|].
  exists (l2 ++ l1). rewrite G2, G1, app_assoc. split; [reflexivity|]. rewrite sum_of_app. split; [lia|exact L2].
Qed.
Lemma pays_ret {A} k (a : A) : k = 0 -> pays k (ret a).
Proof.
  intros -> s x s' [S0 P0] E. injection E as _ <-. split; [reflexivity|]. exists []. cbn. repeat split; lia.
Qed.
Lemma pays_fail {A} k e : pays k (@fail asked A e).
Proof. intros s x s' _ E. discriminate E. Qed.
Lemma pays_less {A} j k (m : M asked A) : pays j m -> k <= j -> pays k m.
Proof.
  intros H L s a s' B0 E. destruct (H _ _ _ B0 E) as (D & l & G & P & Q). split; [exact D|]. exists l.
  repeat split; try assumption; lia.
Qed.
Lemma pays_quiet {A} k (m : M reader A) : takes k m -> pays k (quietly m).
Proof.
  intros H s a s' B0 E. unfold quietly in E. destruct (m (a_reader s)) as [x r| | | |] eqn:F; try discriminate E.
  injection E as -> <-. destruct (H _ _ _ B0 F) as (D & P & L). cbn [a_reader a_log]. split; [exact D|].
  exists []. cbn. repeat split; lia.
Qed.
(** A request is paid for by what follows. *)
Lemma pays_ask {A} n k (m : M asked A) : pays (n + k) m -> pays k (ask n ;;; m).
Proof.
  intros H s a s' B0 E. unfold bind, ask in E. specialize (H (mkAsked (a_reader s) (n :: a_log s)) a s' B0 E).
  destruct H as (D & l & G & P & L). cbn [a_reader a_log] in *. split; [exact D|].
  exists (l ++ [n]). rewrite G, <- app_assoc. split; [reflexivity|]. rewrite sum_of_app. cbn. split; [lia|exact L].
Qed.
Lemma pays_repeat {A} n k (m : M asked A) : pays k m -> pays (N.of_nat n * k) (repeat_m n m).
Proof.
  intro H. induction n as [|n IH]; cbn [repeat_m]; [apply pays_ret; lia|].
  eapply pays_bind; [exact H|intro]. apply (pays_less (N.of_nat n * k)); [|lia].
  eapply pays_bind; [exact IH|intro]. apply pays_ret. lia.
Qed.
Lemma pays_elements {A B} n (m : M asked A) (f : list A -> M asked B) k :
  pays 1 m -> (forall l, pays k (f l)) -> pays k (ask n ;;; (l <- repeat_m (N.to_nat n) m ;; f l)).
Proof.
  intros H1 H2. apply pays_ask. eapply pays_bind; [apply pays_repeat, H1|intro l].
  apply (pays_less k); [apply H2|lia].
Qed.

Lemma pays_shape p : pays 0 (array_shape_asking p).
Proof.
  unfold array_shape_asking. do 2 (eapply pays_bind; [apply pays_quiet, takes_rcu|intro]).
  apply pays_elements; [apply pays_quiet, takes_rcu|intro].
  eapply pays_bind; [apply pays_quiet, takes_rcu|intro].
  apply pays_elements; [apply pays_quiet, takes_rcu|intro]. apply pays_ret. reflexivity.
Qed.
Lemma takes_named p : takes 0 (read_type_def_or_ref p).
Proof.
  unfold read_type_def_or_ref. eapply takes_bind; [apply takes_rcu|intro v]. cbv zeta.
  destruct (N.land v 3) as [|[[|[]|]|[|[]|]|]]; first [apply takes_ret; reflexivity|apply takes_fail].
Qed.

Ltac pays_arm IH :=
  match goal with
  | |- pays _ (ret _) => apply pays_ret; reflexivity
  | |- pays _ (fail _) => apply pays_fail
  | |- pays _ (bind (quietly (read_type_def_or_ref _)) _) => eapply pays_bind; [apply pays_quiet, takes_named|intro; pays_arm IH]
  | |- pays _ (bind (quietly _) _) => eapply pays_bind; [apply pays_quiet, takes_rcu|intro; pays_arm IH]
  | |- pays _ (bind (ask _) _) => apply pays_elements; [exact IH|intro; pays_arm IH]
  | |- pays _ (bind (array_shape_asking _) _) => eapply pays_bind; [apply pays_shape|intro; pays_arm IH]
  | |- pays _ (bind _ _) => eapply pays_bind; [exact IH|intro; pays_arm IH]
  end.

Lemma pays_element_f p f : pays 1 (element_asking_f f p).
Proof.
  induction f as [|f IH]; [intros s a s' _ E; discriminate E|]. cbn [element_asking_f].
  eapply pays_bind; [apply pays_quiet, takes_rd; reflexivity|intro b]. change (1 - 1) with 0.
  destruct b as [|b]; [apply pays_fail|].
  do 7 (try (destruct b as [b|b|]; try (pays_arm IH))).
Qed.
Lemma pays_element p : pays 1 (element_asking p).
Proof. intros s a s' B0 E. exact (pays_element_f p _ s a s' B0 E). Qed.

Lemma pays_method_signature p : pays 0 (method_signature_asking p).
Proof.
  unfold method_signature_asking. eapply pays_bind; [apply pays_quiet, takes_rd; reflexivity|intro next]. cbv zeta.
  eapply pays_bind with (j := 0).
  { destruct (has next 0x10); [apply pays_quiet, (takes_less 1); [apply takes_rcu|lia]|apply pays_ret; reflexivity]. }
  intro. eapply pays_bind; [apply pays_quiet, takes_rcu|intro]. eapply pays_bind; [apply pays_element|intro].
  apply pays_elements; [apply pays_element|intro]. apply pays_ret. reflexivity.
Qed.
Lemma pays_property_signature p : pays 0 (property_signature_asking p).
Proof.
  unfold property_signature_asking. eapply pays_bind; [apply pays_quiet, takes_rd; reflexivity|intro next]. cbv zeta.
  destruct (negb _); [apply pays_fail|].
  eapply pays_bind; [apply pays_quiet, takes_rcu|intro]. eapply pays_bind; [apply pays_element|intro].
  apply pays_elements; [apply pays_element|intro]. apply pays_ret. reflexivity.
Qed.
Lemma pays_method_spec p : pays 0 (method_spec_asking p).
Proof.
  unfold method_spec_asking. eapply pays_bind; [apply pays_quiet, takes_rd; reflexivity|intro next].
  destruct (negb _); [apply pays_fail|].
  eapply pays_bind; [apply pays_quiet, takes_rcu|intro].
  apply pays_ask. eapply pays_less; [apply pays_repeat, pays_element|lia].
Qed.

(** ** Tables *)

(** Between tables: [done] are the requests so far, all paid for with two bytes each. *)
Definition paid (r : reader) (done : list N) (s : asked) : Prop :=
  rdata (a_reader s) = rdata r /\ a_log s = rev done /\
  rpos r + 2 * sum_of done <= rpos (a_reader s) /\ rpos (a_reader s) <= len (rdata r).

(** From there, [m] returns; when it fails, only the latest request has not been paid for. *)
Definition settles {A} (r : reader) (done : list N) (m : M asked A) (post : A -> list N -> Prop) : Prop :=
  forall s, paid r done s ->
    match m s with
    | Ok a s' => exists done', paid r done' s' /\ post a done'
    | Err _ s' => exists n done', a_log s' = n :: rev done' /\ rpos r + 2 * sum_of done' <= len (rdata r)
    | _ => False
    end.

Lemma sum_of_rev l : sum_of (rev l) = sum_of l.
Proof. induction l as [|x l IH]; cbn [rev]; [reflexivity|]. rewrite sum_of_app, IH. change (sum_of [x]) with (x + 0). change (sum_of (x :: l)) with (x + sum_of l). lia. Qed.

Lemma repeat_length {S A} n (m : M S A) s l s' : repeat_m n m s = Ok l s' -> len l = N.of_nat n.
Proof.
  revert s l s'. induction n as [|n IH]; intros s l s' E; cbn [repeat_m] in E.
  - injection E as <- _. reflexivity.
  - apply bind_inv_ok in E as (x & s1 & _ & E). apply bind_inv_ok in E as (xs & s2 & E2 & E). injection E as <- _.
    apply IH in E2. unfold len in *. cbn [List.length]. lia.
Qed.

Lemma settles_table {A B} r done E t (row : M reader A) (f : list A -> M asked B) post :
  slice_ok (rdata r) -> calm 0 row 0 -> takes 2 row ->
  (forall l, settles r (done ++ [len l]) (f l) post) ->
  settles r done (l <- table_asking E t row ;; f l) post.
Proof.
  intros S0 C T H s (D & G & P & L). unfold table_asking, bind, ask, quietly. cbv beta iota. cbn [a_reader a_log].
  set (n := at_table 0 (row_counts E) t). unfold read_table. fold n.
  assert (C' := calm_repeat (N.to_nat n) row C). specialize (C' (a_reader s)). rewrite D in C'.
  specialize (C' S0 ltac:(lia)).
  assert (T' := takes_repeat (N.to_nat n) 2 row T).
  destruct (repeat_m (N.to_nat n) row (a_reader s)) as [l r'|e r'| | |] eqn:F; try contradiction.
  - refine (H l (mkAsked r' (n :: a_log s)) _). assert (B0 : in_bounds (a_reader s)) by (split; rewrite D; assumption).
    destruct (T' _ _ _ B0 F) as (D' & P' & L'). rewrite D in *.
    apply repeat_length in F. rewrite Nnat.N2Nat.id in *. repeat split; cbn [a_reader a_log]; try assumption.
    + rewrite rev_app_distr, F, <- G. reflexivity.
    + rewrite sum_of_app. change (sum_of [len l]) with (len l + 0). rewrite F. lia.
  - cbn [a_log]. exists n, done. rewrite G. split; [reflexivity|lia].
Qed.

Lemma settles_ret {A} r done (a : A) (post : A -> list N -> Prop) : post a done -> settles r done (ret a) post.
Proof. intros H s P. exists done. split; assumption. Qed.

Lemma settles_tables p E r : slice_ok (rdata r) ->
  settles r [] (tables_asking p E) (fun t done => done = table_sizes t).
Proof.
  intro S0. unfold tables_asking.
  apply settles_table; [exact S0|apply calm_module|apply takes_module|intro].
  apply settles_table; [exact S0|apply calm_type_ref|apply takes_type_ref|intro].
  apply settles_table; [exact S0|apply calm_type_def|apply takes_type_def|intro].
  apply settles_table; [exact S0|apply calm_field|apply takes_field|intro].
  apply settles_table; [exact S0|apply calm_method_def|apply takes_method_def|intro].
  apply settles_table; [exact S0|apply calm_param|apply takes_param|intro].
  apply settles_table; [exact S0|apply calm_interface_impl|apply takes_interface_impl|intro].
  apply settles_table; [exact S0|apply calm_member_ref|apply takes_member_ref|intro].
  apply settles_table; [exact S0|apply calm_constant|apply takes_constant|intro].
  apply settles_table; [exact S0|apply calm_custom_attribute|apply takes_custom_attribute|intro].
  apply settles_table; [exact S0|apply calm_field_marshal|apply takes_field_marshal|intro].
  apply settles_table; [exact S0|apply calm_decl_security|apply takes_decl_security|intro].
  apply settles_table; [exact S0|apply calm_class_layout|apply takes_class_layout|intro].
  apply settles_table; [exact S0|apply calm_field_layout|apply takes_field_layout|intro].
  apply settles_table; [exact S0|apply calm_standalone_sig|apply takes_standalone_sig|intro].
  apply settles_table; [exact S0|apply calm_event_map|apply takes_event_map|intro].
  apply settles_table; [exact S0|apply calm_event|apply takes_event|intro].
  apply settles_table; [exact S0|apply calm_property_map|apply takes_property_map|intro].
  apply settles_table; [exact S0|apply calm_property|apply takes_property|intro].
  apply settles_table; [exact S0|apply calm_method_semantics|apply takes_method_semantics|intro].
  apply settles_table; [exact S0|apply calm_method_impl|apply takes_method_impl|intro].
  apply settles_table; [exact S0|apply calm_module_ref|apply takes_module_ref|intro].
  apply settles_table; [exact S0|apply calm_type_spec|apply takes_type_spec|intro].
  apply settles_table; [exact S0|apply calm_impl_map|apply takes_impl_map|intro].
  apply settles_table; [exact S0|apply calm_field_rva|apply takes_field_rva|intro].
  apply settles_table; [exact S0|apply calm_assembly|apply takes_assembly|intro].
  apply settles_table; [exact S0|apply calm_assembly_processor|apply takes_assembly_processor|intro].
  apply settles_table; [exact S0|apply calm_assembly_os|apply takes_assembly_os|intro].
  apply settles_table; [exact S0|apply calm_assembly_ref|apply takes_assembly_ref|intro].
  apply settles_table; [exact S0|apply calm_assembly_ref_processor|apply takes_assembly_ref_processor|intro].
  apply settles_table; [exact S0|apply calm_assembly_ref_os|apply takes_assembly_ref_os|intro].
  apply settles_table; [exact S0|apply calm_file|apply takes_file|intro].
  apply settles_table; [exact S0|apply calm_exported_type|apply takes_exported_type|intro].
  apply settles_table; [exact S0|apply calm_manifest_resource|apply takes_manifest_resource|intro].
  apply settles_table; [exact S0|apply calm_nested_class|apply takes_nested_class|intro].
  apply settles_table; [exact S0|apply calm_generic_param|apply takes_generic_param|intro].
  apply settles_table; [exact S0|apply calm_method_spec|apply takes_method_spec|intro].
  apply settles_table; [exact S0|apply calm_generic_param_constraint|apply takes_generic_param_constraint|intro].
  apply settles_ret. reflexivity.
Qed.

Lemma calm_header p : calm 0 (stream_header p) 0.
Proof.
  unfold stream_header. cbv zeta. do 6 calm_step.
  eapply calm_bind.
  { apply calm_read_array; [reflexivity|].
    match goal with |- count_ones ?x 0 64 * 4 < _ => pose proof (count_ones_bound x 0 64) as B end.
    rewrite pow32. lia. }
  intro. calm_step. apply calm_ret.
Qed.

(** ** Running out of bytes after a request *)

(** At the end of the buffer, the bytes [bs] make [m] ask for [log] and fail. *)
Definition asks {A} (m : M asked A) (bs : list byte) (log : list N) : Prop :=
  forall pre l, slice_ok (pre ++ bs) ->
    exists e s, m (mkAsked (mkReader (pre ++ bs) (len pre)) l) = Err e s /\ a_log s = log ++ l.

Lemma asks_eof {A} p n e (f : N -> M asked A) : 0 < n -> n < 2 ^ 32 -> asks (bind (quietly (rd p n e)) f) [] [].
Proof.
  intros H0 H1 pre l S0. rewrite app_nil_r in *. unfold slice_ok in S0. rewrite pow63 in S0. rewrite pow32 in H1.
  exists e, (mkAsked (mkReader pre (len pre)) l). split; [|reflexivity].
  unfold bind, quietly, rd, bind. cbn [a_reader a_log].
  rewrite read_none; [reflexivity| |]; cbn [rdata rpos]; rewrite ?pow64; lia.
Qed.
Lemma asks_quiet {A B} (m : M reader A) (f : A -> M asked B) bs bs1 bs2 a log :
  bs = bs1 ++ bs2 -> parses m bs1 a -> asks (f a) bs2 log -> asks (bind (quietly m) f) bs log.
Proof.
  intros -> P H pre l S0. unfold bind, quietly. cbn [a_reader a_log]. rewrite (P pre bs2 S0).
  rewrite app_assoc in *. rewrite <- len_app. apply H. exact S0.
Qed.
Lemma asks_step {A B} (m : M asked A) (f : A -> M asked B) bs bs1 bs2 a log :
  bs = bs1 ++ bs2 ->
  (forall pre rest l, slice_ok (pre ++ bs1 ++ rest) ->
     m (mkAsked (mkReader (pre ++ bs1 ++ rest) (len pre)) l) =
     Ok a (mkAsked (mkReader (pre ++ bs1 ++ rest) (len pre + len bs1)) l)) ->
  asks (f a) bs2 log -> asks (bind m f) bs log.
Proof.
  intros -> P H pre l S0. unfold bind. rewrite (P pre bs2 l S0).
  rewrite app_assoc in *. rewrite <- len_app. apply H. exact S0.
Qed.
Lemma asks_ask {A} n (m : M asked A) bs log : asks m bs log -> asks (ask n ;;; m) bs (log ++ [n]).
Proof.
  intros H pre l S0. unfold bind, ask. cbn [a_reader a_log]. destruct (H pre (n :: l) S0) as (e & s & E & G).
  exists e, s. split; [exact E|]. rewrite G, <- app_assoc. reflexivity.
Qed.
Lemma asks_first {A B} n (m : M asked A) (f : list A -> M asked B) bs log : 0 < n ->
  asks m bs log -> asks (l <- repeat_m (N.to_nat n) m ;; f l) bs log.
Proof.
  intros H0 H pre l S0. destruct (N.to_nat n) as [|k] eqn:F; [lia|]. cbn [repeat_m].
  destruct (H pre l S0) as (e & s & E & G). exists e, s. split; [|exact G]. unfold bind. rewrite E. reflexivity.
Qed.
Lemma asks_first' {A} n (m : M asked A) bs log : 0 < n -> asks m bs log -> asks (repeat_m (N.to_nat n) m) bs log.
Proof.
  intros H0 H pre l S0. destruct (N.to_nat n) as [|k] eqn:F; [lia|]. cbn [repeat_m].
  destruct (H pre l S0) as (e & s & E & G). exists e, s. split; [|exact G]. unfold bind. rewrite E. reflexivity.
Qed.
Lemma asks_bind {A B} (m : M asked A) (f : A -> M asked B) bs log : asks m bs log -> asks (bind m f) bs log.
Proof.
  intros H pre l S0. destruct (H pre l S0) as (e & s & E & G). exists e, s. split; [|exact G]. unfold bind. rewrite E. reflexivity.
Qed.

Lemma parses_byte p e b : parses (rd p 1 e) [b] (bn b).
Proof. replace (bn b) with (le_dec [b]) by (cbn [le_dec]; lia). apply parses_rd_bytes. reflexivity. Qed.

(** A type of one byte. *)
Lemma object_step p f pre rest l : slice_ok (pre ++ [x1c] ++ rest) ->
  element_asking_f (S f) p (mkAsked (mkReader (pre ++ [x1c] ++ rest) (len pre)) l) =
  Ok EObject (mkAsked (mkReader (pre ++ [x1c] ++ rest) (len pre + len [x1c])) l).
Proof.
  intro S0. cbn [element_asking_f]. unfold bind at 1, quietly at 1. cbn [a_reader a_log].
  rewrite (parses_byte p blob_eof x1c pre rest S0). reflexivity.
Qed.

(** [k] levels of generic types, each of which promises [n] arguments. *)
Fixpoint nest (n : N) (k : nat) : list byte :=
  match k with
  | O => []
  | S k' => ([x15] ++ [x1c] ++ form4 n) ++ nest n k'
  end.
Lemma len_nest n k : len (nest n k) = 6 * N.of_nat k.
Proof. induction k as [|k IH]; [reflexivity|]. cbn [nest]. rewrite len_app, IH. change (len ([x15] ++ [x1c] ++ form4 n)) with 6. lia. Qed.

Lemma asks_nest_f p n : 0 < n -> n < 2 ^ 30 -> forall k f, (k < f)%nat ->
  asks (element_asking_f f p) (nest n k) (repeat n k).
Proof.
  intros H0 H1. induction k as [|k IH]; intros f F; (destruct f as [|f]; [lia|]); cbn [element_asking_f].
  - apply asks_eof; [lia|reflexivity].
  - cbn [nest]. rewrite <- !app_assoc. eapply asks_quiet; [reflexivity|apply parses_byte|].
    change (bn x15) with 21. cbv beta iota.
    destruct f as [|f]; [lia|].
    eapply asks_step; [reflexivity|apply object_step|].
    eapply asks_quiet; [reflexivity|apply parses_form4; exact H1|].
    cbn [repeat]. rewrite repeat_cons. apply asks_ask. apply asks_first; [exact H0|]. apply IH. lia.
Qed.

Lemma asks_nest p n k : 0 < n -> n < 2 ^ 30 -> asks (element_asking p) (nest n k) (repeat n k).
Proof.
  intros H0 H1 pre l S0. unfold element_asking. cbn [a_reader rdata]. apply asks_nest_f; try assumption.
  pose proof (len_nest n k) as L. rewrite app_length. unfold len in L. lia.
Qed.
Lemma object_whole p pre rest l : slice_ok (pre ++ [x1c] ++ rest) ->
  element_asking p (mkAsked (mkReader (pre ++ [x1c] ++ rest) (len pre)) l) =
  Ok EObject (mkAsked (mkReader (pre ++ [x1c] ++ rest) (len pre + len [x1c])) l).
Proof. apply object_step. Qed.

Lemma asks_method p n : 0 < n -> n < 2 ^ 30 ->
  asks (method_signature_asking p) ([x00] ++ form4 n ++ [x1c]) [n].
Proof.
  intros H0 H1. unfold method_signature_asking. eapply asks_quiet; [reflexivity|apply parses_byte|]. cbv zeta.
  change (bn x00) with 0. change (has 0 0x10) with false. cbv iota.
  eapply asks_step with (bs1 := []) (bs2 := form4 n ++ [x1c]); [reflexivity| |].
  { intros pre rest l S0. unfold ret. cbn [app]. change (len []) with 0. rewrite N.add_0_r. reflexivity. }
  eapply asks_quiet; [reflexivity|apply parses_form4; exact H1|].
  eapply asks_step; [symmetry; apply app_nil_r|apply object_whole|].
  apply (asks_ask n _ [] []). apply asks_first; [exact H0|]. exact (asks_nest p n 0 H0 H1).
Qed.
Lemma asks_property p n : 0 < n -> n < 2 ^ 30 ->
  asks (property_signature_asking p) ([x08] ++ form4 n ++ [x1c]) [n].
Proof.
  intros H0 H1. unfold property_signature_asking. eapply asks_quiet; [reflexivity|apply parses_byte|]. cbv zeta.
  change (negb (has (bn x08) 0x8)) with false. cbv iota.
  eapply asks_quiet; [reflexivity|apply parses_form4; exact H1|].
  eapply asks_step; [symmetry; apply app_nil_r|apply object_whole|].
  apply (asks_ask n _ [] []). apply asks_first; [exact H0|]. exact (asks_nest p n 0 H0 H1).
Qed.
Lemma asks_spec p n : 0 < n -> n < 2 ^ 30 -> asks (method_spec_asking p) ([x0a] ++ form4 n) [n].
Proof.
  intros H0 H1. unfold method_spec_asking. eapply asks_quiet; [reflexivity|apply parses_byte|].
  change (negb (bn x0a =? 0xa)) with false. cbv iota.
  eapply asks_quiet; [symmetry; apply app_nil_r|apply parses_form4; exact H1|].
  apply (asks_ask n _ [] []). apply asks_first'; [exact H0|]. exact (asks_nest p n 0 H0 H1).
Qed.

(** A table stream that has only the first table and promises [n] rows. *)
Definition promise (n : N) : list byte :=
  repeat x00 6 ++ [x00] ++ [x00] ++ le_enc 8 1 ++ le_enc 8 0 ++ le_enc 4 n.

Lemma parses_advance p n bs : len bs = n -> n < 2 ^ 32 -> parses (advance p n) bs true.
Proof.
  intros <- H pre rest S0. assert (S1 := S0). unfold slice_ok in S1. rewrite pow63 in S1. rewrite pow32 in H.
  rewrite advance_ok; cbn [rdata rpos]; [|rewrite pow64; revert S1; slen; lia].
  f_equal. apply N.leb_le. slen. lia.
Qed.

Lemma parses_promise p n : n < 2 ^ 32 -> parses (stream_header p) (promise n) (make_env 0 (n :: repeat 0 63)).
Proof.
  intro H. unfold stream_header, promise. cbv zeta.
  eapply parses_bind'; [reflexivity|apply parses_advance; reflexivity|].
  eapply parses_bind'; [reflexivity|apply parses_byte|].
  change (bn x00) with 0. change (heap_size_flags 0) with (Some 0). cbn [ok_or].
  eapply parses_bind' with (bs1 := []) (bs2 := [x00] ++ le_enc 8 1 ++ le_enc 8 0 ++ le_enc 4 n); [reflexivity|apply parses_ret|].
  eapply parses_bind'; [reflexivity|apply parses_advance; reflexivity|].
  eapply parses_bind'; [reflexivity|apply (parses_rd p 8 _ 1); reflexivity|].
  eapply parses_bind'; [reflexivity|apply (parses_rd p 8 _ 0); reflexivity|].
  change (count_ones 1 0 64) with 1.
  eapply parses_bind'; [symmetry; apply app_nil_r|apply parses_read_array; reflexivity|]. cbn [ok_or].
  eapply parses_bind' with (bs1 := []) (bs2 := []); [reflexivity|apply parses_ret|].
  change (map le_dec (chunks 4 (N.to_nat 1) (le_enc 4 n))) with [le_dec (le_enc 4 n)].
  rewrite le_dec_enc by exact H.
  change (spread 1 0 64 [n]) with (n :: repeat 0 63). apply parses_ret.
Qed.

Lemma asks_promise p n : 0 < n -> n < 2 ^ 32 -> asks (stream_asking p) (promise n) [n].
Proof.
  intros H0 H1. unfold stream_asking. eapply asks_quiet; [symmetry; apply app_nil_r|apply parses_promise; exact H1|].
  unfold tables_asking. apply asks_bind. unfold table_asking, read_table.
  change (at_table 0 (row_counts (make_env 0 (n :: repeat 0 63))) TModule) with n.
  apply (asks_ask n _ [] []).
  intros pre l S0. rewrite app_nil_r in *. unfold slice_ok in S0. rewrite pow63 in S0.
  exists eof, (mkAsked (mkReader pre (len pre)) l). split; [|reflexivity].
  unfold quietly. cbn [a_reader a_log]. destruct (N.to_nat n) as [|k] eqn:F; [lia|]. cbn [repeat_m].
  unfold bind at 1, read_module, bind at 1.
  rewrite read_none by (cbn [rdata rpos]; rewrite ?pow64; lia).
  unfold read_string_handle, read_index. change (wide_string (make_env 0 (n :: repeat 0 63))) with false.
  unfold rd, bind. rewrite read_none by (cbn [rdata rpos]; rewrite ?pow64; lia). reflexivity.
Qed.
