(** * A client and a server connected by a network that delivers what is written, in order (used by the examples and by C58) *)
From Verif Require Import Base Codec Str Hkdf KeySched Handshake Extensions RecordBase Record ReadEvent Cookie Ticket PskSer Kex Hpke Transcript
  HpkeUtils EchCrypt Server ServerSpec Client ClientSpec ClientSteps.
Open Scope N_scope.

(** ech::ECHConfigManager as the server's decrypter: its interface (Decrypter.h:29-55) implemented by EchCrypt.v *)
Definition ech_decrypter (fa : echfac) (ps : list (echcfg * kex)) : decrypter := mkDec
  (fun c _ => x <- decryptClientHello fa ps c ;; Ok (match x with Some (i, o, _, ctx) => Some (i, o, ctx) | None => None end))
  (fun c _ ctx => '(i, o, _) <- decryptClientHelloHRR fa ps c (Some ctx) None ;; Ok (i, o))
  (fun c _ enc => '(i, o, _) <- decryptClientHelloHRR fa ps c None enc ;; Ok (i, o))
  (fun sni => getRetryConfigs ps sni).

(** The bytes a list of actions puts on the wire. *)
Definition content_wire (l : list content) : bytes := concat (map (fun c => match ct_data c with Some b => b | None => [] end) l).
Definition cwire (o : list cout) : bytes := concat (map (fun x => match x with KWrite l => content_wire l | _ => [] end) o).
Definition swire (o : list out) : bytes := concat (map (fun x => match x with OWrite l => content_wire l | _ => [] end) o).

(** Inputs, state and log of both ends, and the bytes under way. *)
Record joint := mkJoint {
  j_ci : list (cworld * cinput); j_c : cstate; j_cl : list centry; j_c2s : bytes;
  j_si : list (world * input); j_s : sstate; j_sl : list entry; j_s2c : bytes }.
Definition j_init : joint := mkJoint [] c_init [] [] [] s_init [] [].
(** A call at either end, or the delivery of everything under way to it (it processes one event and leaves the rest). *)
Inductive move := MClient (w : cworld) (i : cinput) | MServer (w : world) (i : input) | DClient (w : cworld) | DServer (w : world).
Definition jclient (k : cenv) (j : joint) (w : cworld) (i : cinput) (rest : bytes) : joint :=
  let '(s', o) := cstep k w (j_c j) i in
  mkJoint (j_ci j ++ [(w, i)]) s' (j_cl j ++ cinput_log w (j_c j) i ++ map CEmit o) (j_c2s j ++ cwire o) (j_si j) (j_s j) (j_sl j) rest.
Definition jserver (e : env) (j : joint) (w : world) (i : input) (rest : bytes) : joint :=
  let '(s', o) := sstep e w (j_s j) i in
  mkJoint (j_ci j) (j_c j) (j_cl j) rest (j_si j ++ [(w, i)]) s' (j_sl j ++ received w (j_s j) i ++ map Emit o) (j_s2c j ++ swire o).
Definition jstep (k : cenv) (e : env) (j : joint) (m : move) : joint :=
  match m with
  | MClient w i => jclient k j w i (j_s2c j)
  | MServer w i => jserver e j w i (j_c2s j)
  | DClient w => jclient k j w (JSocket (j_s2c j)) (snd (cprocess_socket k w (j_c j) (j_s2c j)))
  | DServer w => jserver e j w (ISocket (j_c2s j)) (snd (process_socket e w (j_s j) (j_c2s j)))
  end.
Definition jrun (k : cenv) (e : env) (l : list move) : joint := fold_left (jstep k e) l j_init.

(** Both ends of a joint run are connections in the sense of ClientSpec.v and ServerSpec.v. *)
Lemma slog_snoc e l s log w i s' o : reach e l s log -> sstep e w s i = (s', o) -> reach e (l ++ [(w, i)]) s' (log ++ received w s i ++ map Emit o).
Proof.
  unfold reach. intros H E. assert (G : forall l s0 s1 L, slog e s0 l = (s1, L) -> slog e s0 (l ++ [(w, i)]) =
    (fst (sstep e w s1 i), L ++ received w s1 i ++ map Emit (snd (sstep e w s1 i)))).
  { clear. induction l as [|[w' i'] l IH]; intros s0 s1 L H; cbn [slog app] in *.
    - injection H as <- <-. destruct (sstep e w s0 i). cbn [fst snd app]. rewrite app_nil_r. reflexivity.
    - destruct (sstep e w' s0 i') as [s2 o2]. destruct (slog e s2 l) as [s3 L3] eqn:E3. injection H as <- <-. rewrite (IH _ _ _ E3), <- !app_assoc. reflexivity. }
  rewrite (G _ _ _ _ H), E. reflexivity.
Qed.
Definition jgood (k : cenv) (e : env) (j : joint) : Prop := creach k (j_ci j) (j_c j) (j_cl j) /\ reach e (j_si j) (j_s j) (j_sl j).
Lemma jstep_good k e j m : jgood k e j -> jgood k e (jstep k e j m).
Proof.
  intros (A & B). assert (C : forall w i r, jgood k e (jclient k j w i r)).
  { intros w i r. unfold jclient. destruct (cstep k w (j_c j) i) as [s' o] eqn:E. split; [|exact B]. cbn [j_ci j_c j_cl]. eapply creach_snoc; eassumption. }
  assert (D : forall w i r, jgood k e (jserver e j w i r)).
  { intros w i r. unfold jserver. destruct (sstep e w (j_s j) i) as [s' o] eqn:E. split; [exact A|]. cbn [j_si j_s j_sl]. eapply slog_snoc; eassumption. }
  destruct m; cbn [jstep]; auto.
Qed.
Lemma jrun_good k e l : jgood k e (jrun k e l).
Proof.
  unfold jrun. assert (G : forall l j, jgood k e j -> jgood k e (fold_left (jstep k e) l j)) by (clear; induction l; intros j H; [exact H|apply IHl, jstep_good, H]).
  apply G. split; reflexivity.
Qed.
