(** Property C81: the texts of tokens, addresses, types, fields, parameters and methods. *)
From Coq Require Import NArith String List Bool Lia Arith.
From Coq.Strings Require Import Byte.
From Verif Require Import Base BaseFacts Tables Metadata Runtime Loader Texts SpecRuntime SpecHistory HistoryProofs
  DemoImages DemoStates ParamImages SpecTexts PropsParams.
Import ListNotations.
Open Scope N_scope.

(** ** Numbers *)

Lemma hex_char_ok d : d < 16 -> nth_error (bytes_of_string "0123456789abcdef") (N.to_nat d) = Some (hex_char d).
Proof.
  intros H. assert (K : forallb (fun i => match nth_error (bytes_of_string "0123456789abcdef") i with
    | Some c => Byte.eqb c (hex_char (N.of_nat i)) | None => false end) (seq 0 16) = true) by reflexivity.
  rewrite forallb_forall in K. specialize (K (N.to_nat d)). rewrite N2Nat.id in K.
  specialize (K ltac:(apply in_seq; lia)). destruct (nth_error _ _) as [c|]; [|discriminate].
  apply byte_eqb_spec in K. congruence.
Qed.

Lemma lower_hex_app fuel : forall n acc, lower_hex fuel n acc = lower_hex fuel n [] ++ acc.
Proof.
  induction fuel as [|fuel IH]; intros n acc; [reflexivity|]. cbn [lower_hex].
  destruct (n / 16 =? 0); [reflexivity|]. rewrite IH, (IH _ [_]), <- app_assoc. reflexivity.
Qed.
Lemma lower_hex_ok fuel : forall n, n < 16 ^ N.of_nat fuel -> (0 < fuel)%nat ->
  hex_number (lower_hex fuel n []) n /\ (n <> 0 -> exists c ds, lower_hex fuel n [] = c :: ds /\ c <> x30) /\
  lower_hex fuel n [] <> [] /\
  forall k, n < 16 ^ N.of_nat k -> (0 < k)%nat -> (List.length (lower_hex fuel n []) <= k)%nat.
Proof.
  induction fuel as [|fuel IH]; intros n Hn Hf; [lia|]. cbn [lower_hex].
  pose proof (N.div_mod n 16 ltac:(discriminate)) as DM. pose proof (N.mod_lt n 16 ltac:(discriminate)) as ML.
  destruct (n / 16 =? 0) eqn:E.
  - apply N.eqb_eq in E. assert (n mod 16 = n) as -> by lia. split; [|split; [|split]].
    + pose proof (hex_more [] 0 _ n hex_none (hex_char_ok n ltac:(lia))) as H. exact H.
    + intros Z. exists (hex_char n), []. split; [reflexivity|].
      assert (K : forallb (fun i => negb (Byte.eqb (hex_char (N.of_nat i)) x30)) (seq 1 15) = true) by reflexivity.
      rewrite forallb_forall in K. specialize (K (N.to_nat n) ltac:(apply in_seq; lia)). rewrite N2Nat.id in K.
      intros C. rewrite C in K. discriminate.
    + discriminate.
    + intros k _ Hk. cbn. lia.
  - apply N.eqb_neq in E. rewrite lower_hex_app.
    assert (P : 16 ^ N.of_nat (S fuel) = 16 * 16 ^ N.of_nat fuel) by (rewrite Nat2N.inj_succ, N.pow_succ_r'; reflexivity).
    assert (L : n / 16 < 16 ^ N.of_nat fuel) by (apply N.div_lt_upper_bound; [discriminate|lia]).
    assert (F : (0 < fuel)%nat) by (destruct fuel; [cbn in L; lia|lia]).
    destruct (IH (n / 16) L F) as (A & B & C & D). split; [|split; [|split]].
    + pose proof (hex_more _ _ _ _ A (hex_char_ok (n mod 16) ML)) as H. rewrite <- DM in H. exact H.
    + intros _. destruct (B E) as (c & ds & -> & Nc). exists c, (ds ++ [hex_char (n mod 16)]). split; [reflexivity|exact Nc].
    + destruct (lower_hex fuel (n / 16) []); discriminate.
    + intros k Hk K0. rewrite app_length. cbn [List.length]. destruct k as [|k]; [lia|].
      rewrite Nat2N.inj_succ, N.pow_succ_r' in Hk.
      assert (L2 : n / 16 < 16 ^ N.of_nat k) by (apply N.div_lt_upper_bound; [discriminate|lia]).
      assert (K1 : (0 < k)%nat) by (destruct k; [cbn in L2; lia|lia]).
      specialize (D k L2 K1). lia.
Qed.
Lemma hex_of_ok n : n < 2 ^ 32 -> hex_number (hex_of n) n /\ (n <> 0 -> exists c ds, hex_of n = c :: ds /\ c <> x30) /\
  hex_of n <> [] /\ (List.length (hex_of n) <= 8)%nat.
Proof.
  intros H. destruct (lower_hex_ok 128 n) as (A & B & C & D); [|lia|].
  - eapply N.lt_trans; [exact H|]. vm_compute. reflexivity.
  - split; [exact A|]. split; [exact B|]. split; [exact C|]. apply D; [exact H|lia].
Qed.
Lemma hex_zeros k : forall ds v, hex_number ds v -> hex_number (repeat x30 k ++ ds) v.
Proof.
  assert (Z : hex_number (repeat x30 k) 0).
  { induction k as [|k IH]; [constructor|]. replace (S k) with (k + 1)%nat by lia. rewrite repeat_app.
    exact (hex_more _ _ x30 0 IH eq_refl). }
  intros ds v H. induction H as [|ds v c d H IH E]; [now rewrite app_nil_r|]. rewrite app_assoc. now constructor.
Qed.
Lemma hex_inj : forall ds v w, hex_number ds v -> hex_number ds w -> v = w.
Proof.
  intros ds v w H. revert w. induction H as [|ds v c d H IH E]; intros w G; inversion G as [X|ds' v' c' d' G' E' X]; subst.
  - reflexivity.
  - destruct ds'; discriminate.
  - destruct ds; discriminate.
  - apply app_inj_tail in X as [-> ->]. rewrite (IH v' G').
    assert (N.to_nat d = N.to_nat d') as Q; [|apply N2Nat.inj in Q; congruence].
    assert (ND : NoDup (bytes_of_string "0123456789abcdef")).
    { cbn. repeat constructor; cbn; intuition discriminate. }
    apply (proj1 (NoDup_nth_error _) ND); [|congruence]. apply nth_error_Some. congruence.
Qed.

(** C81, tokens: the text is [0x] and eight digits, which are the token. *)
Theorem C81_token_text token : token < 2 ^ 32 ->
  exists ds, token_text token = bytes_of_string "0x" ++ ds /\ len ds = 8 /\ hex_number ds token.
Proof.
  intros H. destruct (hex_of_ok token H) as (A & _ & _ & L).
  exists (repeat x30 (8 - List.length (hex_of token)) ++ hex_of token). split; [reflexivity|]. split.
  - unfold len. rewrite app_length, repeat_length. lia.
  - now apply hex_zeros.
Qed.
Print Assumptions C81_token_text.
Example C81_token_text_ex : 0x06000001 < 2 ^ 32 /\ token_text 0x06000001 = bytes_of_string "0x06000001" /\
  token_text 0xa0000ff = bytes_of_string "0x0a0000ff" /\ token_text 0 = bytes_of_string "0x00000000".
Proof. repeat split; vm_compute; reflexivity. Qed.

(** C81, addresses: [0x] and as many digits as needed. *)
Theorem C81_rva_text rva : rva < 2 ^ 32 ->
  exists c ds, rva_text rva = bytes_of_string "0x" ++ c :: ds /\ hex_number (c :: ds) rva /\ (c = x30 -> rva = 0 /\ ds = []).
Proof.
  intros H. destruct (hex_of_ok rva H) as (A & B & C & L). unfold rva_text.
  destruct (N.eq_dec rva 0) as [-> |Z].
  - exists x30, []. split; [vm_compute; reflexivity|]. split; [exact (hex_more [] 0 x30 0 hex_none eq_refl)|auto].
  - destruct (B Z) as (c & ds & E & Nc). exists c, ds. rewrite E in *. split; [reflexivity|]. split; [exact A|]. intros; contradiction.
Qed.
Print Assumptions C81_rva_text.
Example C81_rva_text_ex : 0x2050 < 2 ^ 32 /\ rva_text 0x2050 = bytes_of_string "0x2050" /\ rva_text 0 = bytes_of_string "0x0".
Proof. repeat split; vm_compute; reflexivity. Qed.

(** C81: different tokens have different texts, and so have different addresses. *)
Theorem C81_numbers_apart a b : a < 2 ^ 32 -> b < 2 ^ 32 ->
  (token_text a = token_text b -> a = b) /\ (rva_text a = rva_text b -> a = b).
Proof.
  intros Ha Hb. split; intros E.
  - destruct (C81_token_text a Ha) as (da & Ea & _ & Na). destruct (C81_token_text b Hb) as (db & Eb & _ & Nb).
    rewrite Ea, Eb in E. apply app_inv_head in E. subst db. exact (hex_inj _ _ _ Na Nb).
  - destruct (C81_rva_text a Ha) as (ca & da & Ea & Na & _). destruct (C81_rva_text b Hb) as (cb & db & Eb & Nb & _).
    rewrite Ea, Eb in E. apply app_inv_head in E. rewrite <- E in Nb. exact (hex_inj _ _ _ Na Nb).
Qed.
Print Assumptions C81_numbers_apart.
Example C81_numbers_apart_ex : token_text 0x10 <> token_text 0x100 /\ rva_text 0x10 <> rva_text 0x100.
Proof. split; vm_compute; discriminate. Qed.

(** ** Texts of the runtime's objects *)

Lemma the_type_ok s t n : short_name s t n -> exists ti, the_type t s = Ok ti s /\ ti_name ti = n.
Proof. intros (ti & E & N). exists ti. unfold the_type. now rewrite E. Qed.

(** Where a text goes up to the first [c]. *)
Lemma split_at (c : byte) : forall a b x y, ~ In c a -> ~ In c b -> a ++ c :: x = b ++ c :: y -> a = b /\ x = y.
Proof.
  induction a as [|z a IH]; intros [|w b] x y Na Nb E; cbn in *.
  - split; congruence.
  - exfalso. apply Nb. left. congruence.
  - exfalso. apply Na. left. congruence.
  - destruct (IH b x y) as [-> ->]; [tauto|tauto|congruence|]. split; congruence.
Qed.

Lemma params_text_ok s : forall l ns, Forall2 (fun a n => short_name s (pa_type a) n) l ns -> params_text l s = Ok (joined ns) s.
Proof.
  induction 1 as [|a n l ns H F IH]; [reflexivity|]. cbn [params_text]. unfold bind.
  destruct (the_type_ok _ _ _ H) as (ti & -> & Nt). cbn beta. rewrite IH. unfold ret. rewrite Nt.
  inversion F; subst; cbn [joined]; [now rewrite !app_nil_r|reflexivity].
Qed.
Lemma method_text_ok s m result own params : shown s m result own params ->
  method_text m s = Ok (result ++ x20 :: own ++ x28 :: joined params ++ [x29]) s.
Proof.
  intros (R & <- & P). unfold method_text, bind. destruct (the_type_ok _ _ _ R) as (ti & -> & Nt). cbn beta.
  rewrite (params_text_ok _ _ _ P). unfold ret. now rewrite Nt.
Qed.

Lemma plain_not n c : plain n -> (c = x20 \/ c = x2c \/ c = x28 \/ c = x29) -> ~ In c n.
Proof. intros [_ P] H I. specialize (P c I). intuition. Qed.
Lemma joined_inj : forall l l', Forall plain l -> Forall plain l' -> joined l ++ [x29] = joined l' ++ [x29] -> l = l'.
Proof.
  induction l as [|n l IH]; intros [|n' l'] F F' E; [reflexivity| | |]; inversion_clear F as [|? ? P Q]; inversion_clear F' as [|? ? P' Q'].
  - exfalso. cbn [joined app] in E. destruct P' as [Ne No]. destruct n' as [|c n']; [congruence|].
    assert (c = x29) as ->; [|specialize (No x29 (or_introl eq_refl)); tauto].
    destruct l'; cbn [app] in E; injection E; congruence.
  - exfalso. cbn [joined app] in E. destruct P as [Ne No]. destruct n as [|c n]; [congruence|].
    assert (c = x29) as ->; [|specialize (No x29 (or_introl eq_refl)); tauto].
    destruct l; cbn [app] in E; injection E; congruence.
  - destruct l as [|m l], l' as [|m' l'].
    + cbn [joined] in E. apply app_inj_tail in E as [-> _]. reflexivity.
    + exfalso. change (joined [n]) with n in E. change (joined (n' :: m' :: l')) with (n' ++ bytes_of_string ", " ++ joined (m' :: l')) in E.
      assert (I : In x2c (n ++ [x29])) by (rewrite E, <- !app_assoc; apply in_or_app; right; left; reflexivity).
      apply in_app_or in I as [I|[I|[]]]; [|discriminate]. exact (plain_not _ _ P (or_intror (or_introl eq_refl)) I).
    + exfalso. change (joined [n']) with n' in E. change (joined (n :: m :: l)) with (n ++ bytes_of_string ", " ++ joined (m :: l)) in E.
      assert (I : In x2c (n' ++ [x29])) by (rewrite <- E, <- !app_assoc; apply in_or_app; right; left; reflexivity).
      apply in_app_or in I as [I|[I|[]]]; [|discriminate]. exact (plain_not _ _ P' (or_intror (or_introl eq_refl)) I).
    + change (joined (n :: m :: l)) with (n ++ x2c :: x20 :: joined (m :: l)) in E.
      change (joined (n' :: m' :: l')) with (n' ++ x2c :: x20 :: joined (m' :: l')) in E. rewrite <- !app_assoc in E. cbn [app] in E.
      apply split_at in E as [-> E]; [|apply plain_not; auto|apply plain_not; auto]. injection E as E. now rewrite (IH _ Q Q' E).
Qed.

(** C81: what the texts of a type, of its fields and methods and of their parameters are.  Making them changes nothing. *)
Theorem C81_texts p fs paths s t ti : history p fs paths s -> nth_error (c_types s) t = Some ti ->
  type_text t s = Ok (ti_full_name ti) s /\
  (forall f, In f (ti_fields ti) -> exists n, short_name s (f_type f) n /\
     field_text f s = Ok (n ++ x20 :: f_name f) s) /\
  (forall m, In m (ti_methods ti) -> exists result params, shown s m result (mt_name m) params /\
     method_text m s = Ok (result ++ x20 :: mt_name m ++ x28 :: joined params ++ [x29]) s /\
     forall a, In a (mt_params m) -> exists n, short_name s (pa_type a) n /\ param_text a s = Ok (n ++ x20 :: pa_name a) s).
Proof.
  intros H E. destruct (history_ok _ _ _ _ H) as (W & _). pose proof (types_ok _ _ W) as V.
  rewrite Forall_forall in V. destruct (V ti (nth_error_In _ _ E)) as (_ & _ & Vf & Vm & _).
  assert (K : forall u, v_type_ref (List.length (c_types s)) u -> exists n, short_name s u n).
  { intros u Hu. unfold v_type_ref in Hu. destruct (nth_error (c_types s) u) as [x|] eqn:Ex; [|apply nth_error_None in Ex; lia].
    exists (ti_name x), x. auto. }
  split; [|split].
  - unfold type_text, bind, the_type. now rewrite E.
  - intros f I. rewrite Forall_forall in Vf. destruct (Vf f I) as [Vt _]. destruct (K _ Vt) as [n Hn]. exists n. split; [exact Hn|].
    unfold field_text, bind. destruct (the_type_ok _ _ _ Hn) as (x & -> & Nx). unfold ret. now rewrite Nx.
  - intros m I. rewrite Forall_forall in Vm. destruct (Vm m I) as (_ & Vr & Vp & _). destruct (K _ Vr) as [r Hr].
    assert (P : exists ns, Forall2 (fun a n => short_name s (pa_type a) n) (mt_params m) ns).
    { clear -Vp K. induction Vp as [|a l Ha _ [ns IH]]; [exists []; constructor|]. destruct (K _ Ha) as [n Hn]. exists (n :: ns). now constructor. }
    destruct P as [ns P]. exists r, ns. assert (S : shown s m r (mt_name m) ns) by (split; [exact Hr|split; [reflexivity|exact P]]).
    split; [exact S|]. split; [exact (method_text_ok _ _ _ _ _ S)|].
    intros a Ia. rewrite Forall_forall in Vp. destruct (K _ (Vp a Ia)) as [n Hn]. exists n. split; [exact Hn|].
    unfold param_text, bind. destruct (the_type_ok _ _ _ Hn) as (x & -> & Nx). unfold ret. now rewrite Nx.
Qed.
Print Assumptions C81_texts.

(** C81, methods with plain names: the text tells the name of the type of the result, the name of the method and
    the names of the types of its parameters, in order. *)
Theorem C81_method_text_partial s m1 m2 r1 n1 ps1 r2 n2 ps2 :
  shown s m1 r1 n1 ps1 -> shown s m2 r2 n2 ps2 ->
  plain r1 -> plain n1 -> Forall plain ps1 -> plain r2 -> plain n2 -> Forall plain ps2 ->
  (method_text m1 s = method_text m2 s <-> r1 = r2 /\ n1 = n2 /\ ps1 = ps2).
Proof.
  intros S1 S2 R1 N1 P1 R2 N2 P2. rewrite (method_text_ok _ _ _ _ _ S1), (method_text_ok _ _ _ _ _ S2). split.
  - intros E. injection E as E.
    apply split_at in E as [-> E]; [|apply plain_not; auto|apply plain_not; auto].
    apply split_at in E as [-> E]; [|apply plain_not; auto|apply plain_not; auto].
    now rewrite (joined_inj _ _ P1 P2 E).
  - intros (-> & -> & ->). reflexivity.
Qed.
Print Assumptions C81_method_text_partial.

(** C81 is false for methods: namespaces are not shown, so overloads for types of the same name have the same text. *)
Definition user_methods : list method_info := Eval vm_compute in
  match nth_error (c_types demo_params) (List.length (c_types demo_params) - 1) with Some ti => ti_methods ti | None => [] end.
Lemma demo_params_history p : history p no_files [] demo_params.
Proof.
  exists 10%nat, system_runtime, system_console, demo_vm. split; [apply demo_vm_started|].
  eapply later_then; [apply later_now|]. eapply ev_load. apply demo_params_loaded.
Qed.
Theorem C81_method_text_refuted : forall p, exists s m1 m2 t1 t2 n1 n2, history p no_files [] s /\
  (exists t ti, nth_error (c_types s) t = Some ti /\ In m1 (ti_methods ti) /\ In m2 (ti_methods ti)) /\
  map pa_type (mt_params m1) = [t1] /\ map pa_type (mt_params m2) = [t2] /\
  type_text t1 s = Ok n1 s /\ type_text t2 s = Ok n2 s /\ n1 <> n2 /\
  method_text m1 s = method_text m2 s.
Proof.
  intros p. exists demo_params. let x := eval vm_compute in user_methods in match x with [?a; ?b] => exists a, b end.
  exists (List.length (c_types demo_params) - 3)%nat, (List.length (c_types demo_params) - 2)%nat,
    (bytes_of_string "First.Thing"), (bytes_of_string "Second.Thing").
  split; [apply demo_params_history|]. split; [|split; [vm_compute; reflexivity|split; [vm_compute; reflexivity|]]].
  - exists (List.length (c_types demo_params) - 1)%nat. eexists. split; [vm_compute; reflexivity|].
    split; [left; reflexivity|right; left; reflexivity].
  - split; [vm_compute; reflexivity|]. split; [vm_compute; reflexivity|]. split; [discriminate|vm_compute; reflexivity].
Qed.
Print Assumptions C81_method_text_refuted.

(** The two methods of the counterexample, and [Marked] of the same image, whose text is plain. *)
Definition text_of (r : res vm name) : option name := match r with Ok n _ => Some n | _ => None end.
Example C81_texts_ex p : history p no_files [] demo_params /\
  map (fun m => text_of (method_text m demo_params)) user_methods =
    [Some (bytes_of_string "Void Use(Thing)"); Some (bytes_of_string "Void Use(Thing)")].
Proof. split; [apply demo_params_history|vm_compute; reflexivity]. Qed.
Definition marked : method_info := ltac:(
  let r := eval vm_compute in (resolve_method Debug 2%nat 0x06000001 demo_params) in
  match r with Ok (Some ?x) _ => exact x end).
Example C81_method_text_ex : shown demo_params marked (bytes_of_string "Int32") (bytes_of_string "Marked")
    [bytes_of_string "Int32"; bytes_of_string "Int32"] /\
  plain (bytes_of_string "Int32") /\ plain (bytes_of_string "Marked") /\
  text_of (method_text marked demo_params) = Some (bytes_of_string "Int32 Marked(Int32, Int32)").
Proof.
  assert (T : short_name demo_params (mt_return marked) (bytes_of_string "Int32")).
  { eexists. split; vm_compute; reflexivity. }
  assert (P : forall n, forallb (fun c => negb (existsb (Byte.eqb c) [x20; x2c; x28; x29])) n = true -> n <> [] -> plain n).
  { intros n F Ne. split; [exact Ne|]. intros c I. rewrite forallb_forall in F. specialize (F c I). cbn in F.
    repeat split; intros ->; discriminate. }
  split; [|split; [|split]].
  - split; [exact T|]. split; [reflexivity|]. repeat constructor; eexists; split; vm_compute; reflexivity.
  - apply P; [reflexivity|discriminate].
  - apply P; [reflexivity|discriminate].
  - vm_compute. reflexivity.
Qed.

(** C81, kinds of types: different kinds have different texts. *)
Theorem C81_kind_text a b : kind_text a = kind_text b -> a = b.
Proof. destruct a, b; intros E; solve [reflexivity|discriminate E]. Qed.
Print Assumptions C81_kind_text.
Example C81_kind_text_ex : kind_text KStruct = bytes_of_string "Struct" /\ kind_text KClass <> kind_text KArray.
Proof. split; [reflexivity|discriminate]. Qed.
