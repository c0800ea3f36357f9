(** Sequences of instructions of one frame, with the calls among them, and what calls and literals do
    to the resources of the runtime. *)
From Coq Require Import NArith ZArith String List Bool Lia.
From Coq.Strings Require Import Byte.
From Verif Require Import Base BaseFacts Metadata Utf SpecUtf UtfProofs Runtime Value Opcodes Gc Interp SpecBytes SpecExec SpecFrames SpecStack SpecRuntime
  SpecTypes SpecHeap SpecLang InterpFacts InterpInv RuntimeInv FrameFacts TraceFacts VmFacts CallFacts TypeFacts HeapFacts FieldFacts StackFacts LangFacts PropsDecode PropsHeap.
Import ListNotations.
Open Scope N_scope.

(** ** Paths *)

Section Path.
  Variable p : profile.
  Inductive path : nat -> frame -> machine -> frame -> machine -> Prop :=
  | path_0 fr s : path 0 fr s fr s
  | path_step n fr s fr1 s1 fr2 s2 : (forall f, step f p fr s = Ok (ONext fr1) s1) -> path n fr1 s1 fr2 s2 ->
      path (S n) fr s fr2 s2
  | path_call n k fr s m c fr1 s1 v s2 fr3 s3 : (forall f, step f p fr s = Ok (OCall m c None fr1) s1) ->
      invoke (run k p) m c s1 = Ok v s2 ->
      path n fr1 (set_operands s2 (then_push (x_operands s2) v)) fr3 s3 -> path (S n) fr s fr3 s3.

  Lemma path_trans n fr s fr1 s1 m fr2 s2 : path n fr s fr1 s1 -> path m fr1 s1 fr2 s2 -> path (n + m) fr s fr2 s2.
  Proof. induction 1; intro H'; [exact H'| |]; cbn [Nat.add]; [eapply path_step|eapply path_call]; eauto. Qed.
  Lemma reach_path n fr s fr' s' : reach p n fr s fr' s' -> path n fr s fr' s'.
  Proof. induction 1; [constructor|]. eapply path_step; eauto. Qed.

  Lemma after_call f fr s m c fr1 s1 v s2 : step f p fr s = Ok (OCall m c None fr1) s1 ->
    invoke (run f p) m c s1 = Ok v s2 -> run (S f) p fr s = run f p fr1 (set_operands s2 (then_push (x_operands s2) v)).
  Proof.
    intros E I. cbn [run]. unfold bind at 1. rewrite E. unfold bind at 1. rewrite I. unfold bind. rewrite push_if_run.
    cbn beta iota. rewrite push_if_run. destruct v; reflexivity.
  Qed.

  Lemma path_run n fr s fr' s' : path n fr s fr' s' ->
    exists enough, forall f, (enough <= f)%nat -> run (n + f) p fr s = run f p fr' s'.
  Proof.
    induction 1 as [|n fr s fr1 s1 fr2 s2 E R [K IH]|n k fr s m c fr1 s1 v s2 fr3 s3 E I R [K IH]].
    - exists 0%nat. reflexivity.
    - exists K. intros f L. cbn [Nat.add run]. unfold bind. rewrite E. now apply IH.
    - exists (Nat.max K k). intros f L. cbn [Nat.add].
      rewrite (after_call (n + f) fr s m c fr1 s1 v s2 (E _)); [apply IH; lia|].
      eapply invoke_more; [exact I|discriminate|lia].
  Qed.
  Lemma path_rest n fr s fr' s' : path n fr s fr' s' -> forall k, run k p fr s <> NoFuel ->
    (n <= k)%nat /\ run k p fr s = run (k - n) p fr' s'.
  Proof.
    induction 1 as [|n fr s fr1 s1 fr2 s2 E R IH|n i fr s m c fr1 s1 v s2 fr3 s3 E I R IH]; intros k H.
    - split; [lia|]. now rewrite Nat.sub_0_r.
    - destruct k as [|k]; [now destruct H|]. cbn [run] in *. unfold bind in *. rewrite E in *.
      destruct (IH k H) as [L Q]. split; [lia|exact Q].
    - destruct k as [|k]; [now destruct H|].
      assert (I' : invoke (run k p) m c s1 = Ok v s2).
      { assert (Q : invoke (run k p) m c s1 <> NoFuel)
          by (intro Q; apply H; cbn [run]; unfold bind; rewrite E, Q; reflexivity).
        destruct (Nat.le_ge_cases k i) as [L|L].
        - rewrite <- I. symmetry. now apply (invoke_more p k i m c s1 _ eq_refl Q).
        - now apply (invoke_more p i k m c s1 _ I). }
      rewrite (after_call k fr s m c fr1 s1 v s2 (E _) I') in *. destruct (IH k H) as [L Q]. split; [lia|exact Q].
  Qed.

  (** The frame panics. *)
  Definition panicked {S A} (r : res S A) : Prop := exists w, r = Panic w.
  Definition dies (fr : frame) (s : machine) : Prop :=
    exists enough, forall f, (enough <= f)%nat -> panicked (run f p fr s).
  Lemma dies_at fr s : panics_at p fr s -> dies fr s.
  Proof.
    intro H. exists 1%nat. intros [|f] L; [lia|]. cbn [run]. unfold bind. destruct (H f) as [w ->]. now eexists.
  Qed.
  Lemma dies_path n fr s fr' s' : path n fr s fr' s' -> dies fr' s' -> dies fr s.
  Proof.
    intros R [K H]. destruct (path_run _ _ _ _ _ R) as [K' Q]. exists (n + (K + K'))%nat. intros f L.
    replace f with (n + (f - n))%nat by lia. rewrite Q by lia. apply H. lia.
  Qed.
  Lemma dies_call fr s m c fr1 s1 : (forall f, step f p fr s = Ok (OCall m c None fr1) s1) ->
    (exists enough, forall f, (enough <= f)%nat -> panicked (invoke (run f p) m c s1)) -> dies fr s.
  Proof.
    intros E [K H]. exists (S K). intros [|f] L; [lia|]. cbn [run]. unfold bind. rewrite E.
    destruct (H f ltac:(lia)) as [w ->]. now eexists.
  Qed.
End Path.

(** ** Calls *)

(** [call] with room for the arguments. *)
Lemma call_run p fr s bs m args rest : code_here fr (x28 :: bs) -> List.length bs = 4%nat ->
  denotes (x_vm s) (fr_assembly fr) (Z.to_N (number bs)) m ->
  x_operands s = rev args ++ rest -> List.length args = arguments m ->
  in_use s + N.of_nat (arguments m) <= room s ->
  exists s1, let c := CFrames (k_gen (x_frames s)) (in_use s) (N.of_nat (arguments m)) in
    (forall f, step f p fr s = Ok (OCall m c None (set_ip fr (fr_ip fr + 5))) s1) /\
    (forall i v, nth_error args (N.to_nat i) = Some v -> variable s1 c i v) /\
    x_operands s1 = rest /\ x_vm s1 = x_vm s /\ x_heap s1 = x_heap s /\ x_host s1 = x_host s /\
    k_gen (x_frames s1) = k_gen (x_frames s) /\ room s1 = room s /\
    in_use s1 = in_use s + N.of_nat (arguments m) /\
    (forall i, i < in_use s -> nth_error (k_cells (x_frames s1)) (N.to_nat i) = nth_error (k_cells (x_frames s)) (N.to_nat i)).
Proof.
  intros C L D O La Rm. rewrite number_le_dec, N2Z.id in D.
  pose proof (code_here_drop fr [x28] bs C) as C'. change (len [x28]) with 1 in C'.
  apply (code_here_prefix fr [x28] bs) in C.
  assert (AR : arity m = N.of_nat (arguments m)) by (rewrite <- arity_arguments; lia).
  destruct (stackalloc_run (arity m) s) as (s1 & E & EC & EA & Hh & Hv & Hp & Ho & EG).
  unfold in_use, room in *. destruct (N.ltb_spec (k_cap (x_frames s)) (len (k_cells (x_frames s)) + arity m)); [lia|].
  destruct EG as [EG EK].
  destruct (pop_args_run (k_gen (x_frames s1)) (len (k_cells (x_frames s))) (arity m) args rest s1)
    as (s2 & E2 & (A1 & A2 & A3 & A4 & A5 & A6 & A7) & O2 & N2 & K2);
    [congruence|lia|reflexivity|rewrite EC, len_app, len_repeat; lia|].
  exists s2. cbv zeta. split.
  - intro f. step_at C.
    rewrite (fetched _ _ bs _ s C') by (unfold len; rewrite L; reflexivity). cbv beta iota. cbn [fr_ip set_ip].
    unfold method_call. cbn [fr_assembly set_ip]. unfold bind at 1. rewrite (on_vm_stays _ s _ (denotes_resolve p _ _ _ _ D)).
    change (if mt_static m then len (mt_params m) else len (mt_params m) + 1) with (arity m). cbv zeta.
    unfold bind at 1. rewrite E. replace (N.to_nat (arity m)) with (List.length args) by lia.
    unfold bind. rewrite E2. unfold ret. rewrite EG, AR. replace (fr_ip fr + 5) with (fr_ip fr + 1 + 4) by lia. reflexivity.
  - split.
    + intros i v H'. cbn [variable]. rewrite A5, EG. assert (Hi : (N.to_nat i < List.length args)%nat) by (apply nth_error_Some; congruence).
      split; [reflexivity|]. split; [lia|]. rewrite <- N2 in H' by exact Hi.
      replace (N.to_nat (len (k_cells (x_frames s)) + i)) with (N.to_nat (len (k_cells (x_frames s))) + N.to_nat i)%nat by lia. exact H'.
    + split; [exact O2|]. split; [congruence|]. split; [congruence|]. split; [congruence|]. split; [congruence|]. split; [congruence|]. split.
      * unfold len at 1. rewrite A7, EC, app_length, repeat_length. unfold len. lia.
      * intros i Hi. rewrite K2 by lia. rewrite EC. apply nth_error_app1. unfold len in Hi. lia.
Qed.

(** ** Literals *)

Lemma ok_reserve n s : (h_cap (x_heap s) < len (memory s) + n -> N.max 8 (N.max (2 * h_cap (x_heap s)) (len (memory s) + n)) < 2 ^ 63) ->
  exists s', vec_reserve n s = Ok tt s' /\ memory s' = memory s /\
    (h_cap (x_heap s') = h_cap (x_heap s) \/ h_cap (x_heap s) < len (memory s) + n /\
     h_cap (x_heap s') = N.max 8 (N.max (2 * h_cap (x_heap s)) (len (memory s) + n))).
Proof.
  intros B. unfold vec_reserve, memory in *. destruct (N.ltb_spec (h_cap (x_heap s) - len (h_mem (x_heap s))) n) as [G|G].
  - destruct (N.ltb_spec (2 ^ 63 - 1) (N.max 8 (N.max (2 * h_cap (x_heap s)) (len (h_mem (x_heap s)) + n)))) as [X|X].
    + exfalso. change (2 ^ 63) with 9223372036854775808 in *. lia.
    + eexists. split; [reflexivity|]. split; [reflexivity|]. right. cbn. lia.
  - exists s. split; [reflexivity|]. split; [reflexivity|]. auto.
Qed.

(** The capacity of the heap is bounded by what is stored in it. *)
Definition modest (s : machine) : Prop := h_cap (x_heap s) <= N.max 1024 (2 * len (memory s)).

Lemma ok_ensure p size s : modest s -> len (memory s) + size < 2 ^ 62 -> 8 <= size ->
  exists s', ensure_size p size s = Ok tt s' /\ memory s' = memory s /\
    h_cap (x_heap s') <= N.max 1024 (2 * (len (memory s) + size)).
Proof.
  unfold modest. intros M B Sz. unfold ensure_size, bind.
  assert (U : u_add p 64 (len (memory s)) size = Some (len (memory s) + size)).
  { unfold u_add. destruct (N.ltb_spec (len (memory s) + size) (2 ^ 64)) as [_|X]; [reflexivity|].
    change (2 ^ 62) with 4611686018427387904 in *. change (2 ^ 64) with 18446744073709551616 in X. lia. }
  change (h_mem (x_heap s)) with (memory s). rewrite U. cbn [ovf]. unfold ret at 1.
  destruct (N.ltb_spec (h_cap (x_heap s)) (len (memory s) + size)) as [X|X].
  - destruct (ok_reserve (h_cap (x_heap s)) s) as (s1 & E1 & M1 & C1).
    + change (2 ^ 62) with 4611686018427387904 in *. change (2 ^ 63) with 9223372036854775808 in *. lia.
    + exists s1. split; [exact E1|]. split; [exact M1|]. lia.
  - exists s. split; [reflexivity|]. split; [reflexivity|]. lia.
Qed.
Lemma ok_room p size s : modest s -> len (memory s) + size < 2 ^ 62 -> 8 <= size ->
  exists o s', make_room p size s = Ok o s' /\ modest s' /\ len (memory s') = len (memory s) + size /\
    o = mkObj (h_gen (x_heap s')) (len (memory s)).
Proof.
  intros M B Sz. destruct (ok_ensure p size s M B Sz) as (s1 & E1 & M1 & C1). unfold make_room.
  assert (U : u_add p 64 (len (memory s)) size = Some (len (memory s) + size)).
  { unfold u_add. destruct (N.ltb_spec (len (memory s) + size) (2 ^ 64)) as [_|X]; [reflexivity|].
    change (2 ^ 62) with 4611686018427387904 in *. change (2 ^ 64) with 18446744073709551616 in X. lia. }
  unfold bind at 1. rewrite E1. unfold bind at 1. change (h_mem (x_heap s1)) with (memory s1). rewrite M1.
  unfold bind at 1. rewrite U. cbn [ovf]. unfold ret at 1. unfold bind at 1. unfold vec_resize. unfold bind at 1.
  change (h_mem (x_heap s1)) with (memory s1). rewrite M1.
  destruct (N.ltb_spec (len (memory s)) (len (memory s) + size)) as [_|X]; [|lia].
  replace (len (memory s) + size - len (memory s)) with size by lia.
  destruct (ok_reserve size s1) as (s2 & E2 & M2 & C2).
  { rewrite M1. change (2 ^ 62) with 4611686018427387904 in *. change (2 ^ 63) with 9223372036854775808 in *. lia. }
  unfold bind at 1. rewrite E2. cbn beta iota.
  eexists. eexists. split; [reflexivity|]. unfold modest, memory in *. cbn [x_heap set_heap h_mem h_cap h_gen].
  rewrite len_app, M2, M1, len_zeros. split; [|auto]. rewrite M1 in C2. lia.
Qed.

Lemma ok_load o d n s : o_gen o = h_gen (x_heap s) -> o_off o + d + n <= len (memory s) ->
  load o d n s = Ok (sub_list (o_off o + d) n (memory s)) s.
Proof.
  intros G L. unfold load, memory in *. rewrite G, Nat.eqb_refl. cbn [negb]. apply N.leb_le in L. now rewrite L.
Qed.
Lemma ok_store o d bs s : o_gen o = h_gen (x_heap s) -> o_off o + d + len bs <= len (memory s) ->
  exists s', store o d bs s = Ok tt s' /\ len (memory s') = len (memory s) /\ h_gen (x_heap s') = h_gen (x_heap s) /\
    h_cap (x_heap s') = h_cap (x_heap s) /\ x_vm s' = x_vm s.
Proof.
  intros G L. unfold store, memory in *. rewrite G, Nat.eqb_refl. cbn [negb]. pose proof L as L'. apply N.leb_le in L'. rewrite L'.
  eexists. split; [reflexivity|]. cbn [x_heap set_heap h_mem h_gen h_cap x_vm]. split; [|auto].
  unfold splice. rewrite !len_app. unfold len in *. rewrite firstn_length, skipn_length. lia.
Qed.

Lemma ok_string p text s : consistent p (x_vm s) ->
  (exists ti, In ti (c_types (x_vm s)) /\ ti_full_name ti = bytes_of_string "System.String") ->
  modest s -> len (memory s) + (13 + 2 * len text) < 2 ^ 62 ->
  exists o s', alloc_string p text s = Ok o s' /\ modest s'.
Proof.
  intros W (ti & Hi & Hn) M B. unfold alloc_string.
  assert (B62 : 2 * len text < 2 ^ 62 /\ 13 + 2 * len text < 2 ^ 62) by lia.
  assert (P : 2 ^ 62 < 2 ^ 64) by reflexivity.
  assert (U1 : u_mul p 64 2 (len text) = Some (2 * len text)).
  { unfold u_mul. destruct (N.ltb_spec (2 * len text) (2 ^ 64)); [reflexivity|lia]. }
  assert (U2 : u_add p 64 string_header (2 * len text) = Some (13 + 2 * len text)).
  { unfold u_add, string_header. destruct (N.ltb_spec (13 + 2 * len text) (2 ^ 64)); [reflexivity|lia]. }
  unfold bind at 1. rewrite U1. cbn [ovf]. unfold ret at 1. unfold bind at 1. rewrite U2. cbn [ovf]. unfold ret at 1.
  destruct (ok_room p (13 + 2 * len text) s M B) as (o & s1 & E1 & M1 & L1 & O1); [lia|].
  assert (V1 : x_vm s1 = x_vm s) by (apply silent_run in E1; [exact E1|apply silent_make_room]).
  unfold bind at 1. rewrite E1.
  assert (Go : o_gen o = h_gen (x_heap s1)) by now rewrite O1.
  assert (Oo : o_off o = len (memory s)) by now rewrite O1.
  unfold bind at 1, add_flag, bind at 1. rewrite ok_load by (auto; lia).
  destruct (ok_store o 0 (le_enc 1 (N.lor (le_dec (sub_list (o_off o + 0) 1 (memory s1))) is_string)) s1)
    as (s2 & E2 & L2 & G2 & C2 & V2); [exact Go|rewrite len_le_enc_N; lia|]. rewrite E2.
  assert (N2 : exists u ui, named "System.String" (x_vm s2) = Ok u (x_vm s2) /\ nth_error (c_types (x_vm s2)) u = Some ui).
  { rewrite V2, V1. unfold named, bind, get_type. pose proof (map_ok _ _ W (bytes_of_string "System.String")) as MO.
    destruct (map_get bytes_eqb (bytes_of_string "System.String") (c_type_map (x_vm s))) as [u|].
    - destruct MO as [(ui & Eu & _) _]. exists u, ui. auto.
    - exfalso. now apply (MO ti). }
  destruct N2 as (u & ui & Nu & Eu). unfold bind at 1. rewrite (on_vm_stays _ s2 _ Nu).
  unfold bind at 1. rewrite (on_vm_stays (id_of u) s2 (ti_id ui)) by (unfold id_of, bind, the_type; now rewrite Eu).
  destruct (ok_store o 1 (le_enc 4 (ti_id ui)) s2) as (s3 & E3 & L3 & G3 & C3 & V3); [congruence|rewrite len_le_enc_N; lia|].
  unfold bind at 1. rewrite E3.
  destruct (ok_store o 5 (le_enc 8 (len text)) s3) as (s4 & E4 & L4 & G4 & C4 & V4); [congruence|rewrite len_le_enc_N; lia|].
  unfold bind at 1. rewrite E4.
  destruct (ok_store o string_header (concat (map (le_enc 2) text)) s4) as (s5 & E5 & L5 & G5 & C5 & V5);
    [congruence|rewrite len_units; unfold string_header; lia|].
  unfold bind. rewrite E5. exists o, s5. split; [reflexivity|]. unfold modest in *. rewrite C5, C4, C3, C2, L5, L4, L3, L2. exact M1.
Qed.

(** [ldstr] with room for the string. *)
Lemma literal_run p fr s bs text : consistent p (x_vm s) -> code_here fr (x72 :: bs) -> List.length bs = 4%nat ->
  denotes_string (x_vm s) (fr_assembly fr) (Z.to_N (number bs)) text ->
  (exists ti, In ti (c_types (x_vm s)) /\ ti_full_name ti = bytes_of_string "System.String") ->
  modest s -> len (memory s) + (13 + 2 * len text) < 2 ^ 62 ->
  exists o s', (forall f, step f p fr s = Ok (ONext (set_ip fr (fr_ip fr + 5))) s') /\
    x_vm s' = x_vm s /\ x_operands s' = VObject o :: x_operands s /\ string_value s' o text /\
    x_frames s' = x_frames s /\ x_host s' = x_host s /\ modest s' /\ len (memory s') = len (memory s) + (13 + 2 * len text).
Proof.
  intros W C L D HS M B. destruct (ok_string p text s W HS M B) as (o & s1 & E1 & M1).
  pose proof D as (ai & before & lst & after & Ea & Hb & _ & Un & Lt & Sl & _).
  assert (LT : len text < 2 ^ 64) by (change (2 ^ 29) with 536870912 in Lt; change (2 ^ 64) with 18446744073709551616; lia).
  destruct (alloc_string_ok p text s o s1 W Un LT E1) as (V1 & bb & BB & AL).
  assert (NW : no_wrap p (len (memory s) + 13 + 2 * len text)).
  { intros _. assert (2 ^ 62 < 2 ^ 64) by reflexivity. lia. }
  pose proof (C43_new p s text o s1 W (string_granted p s text o s1 Un LT E1) NW) as SV.
  inversion BB as [| |u ui text' id l cs Eu Ei Lu El Cs]; subst.
  assert (Lb : len ([x04] ++ id ++ l ++ concat cs) = 13 + 2 * len text).
  { assert (Lc : len (concat cs) = 2 * len text).
    { clear - Cs. induction Cs as [|u c text cs H Cs IH]; [reflexivity|]. cbn [concat]. rewrite len_app, len_cons, IH.
      unfold len at 1. rewrite (proj1 H). lia. }
    rewrite !len_app, Lc. assert (Li : len id = 4) by (unfold len; rewrite (proj1 Ei); reflexivity).
    assert (Ll : len l = 8) by (unfold len; rewrite (proj1 El); reflexivity). rewrite Li, Ll. change (len [x04]) with 1. lia. }
  destruct AL as (ML & _ & FR & _ & OP & HO & _); [rewrite Lb; eapply no_wrap_le; [exact NW|lia]|].
  exists o, (set_operands s1 (VObject o :: x_operands s1)). split.
  - intro f. rewrite number_le_dec, N2Z.id in D. pose proof C as C1. apply (code_here_prefix fr [x72] bs) in C1.
    step_at C1. unfold ldstr. pose proof (code_here_drop fr [x72] bs C) as C'. change (len [x72]) with 1 in C'.
    rewrite (fetched _ _ bs _ s C') by (unfold len; rewrite L; reflexivity). cbv beta iota. cbn [fr_ip set_ip fr_assembly].
    unfold bind at 1. rewrite (on_vm_stays _ s _ (denotes_string_get p _ _ _ _ D)).
    unfold bind at 1. rewrite E1. unfold push, bind, next, ret. replace (fr_ip fr + 5) with (fr_ip fr + 1 + 4) by lia. reflexivity.
  - cbn [x_vm set_operands x_operands x_frames x_host]. split; [exact V1|]. split; [now rewrite OP|].
    split; [exact SV|]. split; [exact FR|]. split; [exact HO|]. split; [exact M1|].
    change (memory (set_operands s1 (VObject o :: x_operands s1))) with (memory s1). rewrite ML, len_app, Lb. reflexivity.
Qed.

(** Writing a text to the console. *)
Lemma write_run go m c s o text : mt_impl m = IInternal ConsoleWrite -> variable s c 0 (VObject o) ->
  string_value s o (utf16_encode text) -> Forall scalar text ->
  invoke go m c s = Ok None (set_vm s (set_output (x_vm s) (c_output (x_vm s) ++ text))).
Proof.
  intros IM V SV F. unfold invoke. rewrite IM. unfold console_write. unfold bind at 1.
  assert (G : cell_get c 0 s = Ok (VObject o) s).
  { unfold cell_get. destruct c as [|g b n]; cbn [variable] in V.
    - now rewrite V.
    - destruct V as (G & I & N). destruct (N.leb_spec n 0); [lia|]. rewrite G, Nat.eqb_refl. cbn [negb]. now rewrite N. }
  rewrite G.
  assert (AS : as_string o s = Ok true s).
  { destruct SV as (id & l & cs & Lid & El & Cs & St). apply stored_first in St.
    unfold as_string, flags_of, bind. rewrite (load_stored _ _ _ 1 _ St eq_refl). reflexivity. }
  unfold bind at 1. rewrite AS. unfold bind at 1. rewrite (C43_read s o _ SV).
  unfold bind, unwrap. rewrite (utf16_decode_encode text F). reflexivity.
Qed.
