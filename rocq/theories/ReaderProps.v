(** Properties C01, C02 and C37: what the debugger reads from the socket. *)
From Coq Require Import List NArith ZArith Bool String.
From Verif Require Import Base Reader ReaderSpec ReaderProofs.
Import ListNotations.

(** C01.  The dispatched messages depend only on the bytes, not on the chunks. *)
Theorem reader_chunk_independent :
  forall (decodes : str -> bool) (handler : event -> hres) chunks1 chunks2,
    nonempty_chunks chunks1 -> nonempty_chunks chunks2 ->
    List.concat chunks1 = List.concat chunks2 ->
    no_negative_length (List.concat chunks1) ->
    run decodes handler chunks1 = run decodes handler chunks2.
Proof. exact run_chunks. Qed.
Print Assumptions reader_chunk_independent.

(** C01.  The model's fuel is never exhausted, so the equation above is about real runs. *)
Theorem reader_total :
  forall (decodes : str -> bool) (handler : event -> hres) chunks,
    nonempty_chunks chunks -> no_negative_length (List.concat chunks) ->
    snd (run decodes handler chunks) <> OutOfFuel.
Proof. exact run_total. Qed.
Print Assumptions reader_total.

(** C01, the excluded case: with a length below -1 the answer does depend on the chunks. *)
Theorem reader_negative_length_refuted :
  exists chunks1 chunks2,
    nonempty_chunks chunks1 /\ nonempty_chunks chunks2 /\
    List.concat chunks1 = List.concat chunks2 /\
    run (fun _ => true) (fun _ => HOk) chunks1 <> run (fun _ => true) (fun _ => HOk) chunks2.
Proof.
  exists [lit "Content-Length: -2" ++ crlf ++ crlf ++ lit "abcd"],
         [lit "Content-Length: -2" ++ crlf ++ crlf; lit "abcd"].
  split; [repeat constructor; discriminate|].
  split; [repeat constructor; discriminate|].
  split; [reflexivity|].
  vm_compute. discriminate.
Qed.
Print Assumptions reader_negative_length_refuted.

(** C02.  Any sequence of framed messages, delivered in any chunks, is read back exactly. *)
Theorem wire_round_trip :
  forall (decodes : str -> bool) (handler : event -> hres),
    (forall s, decodes s = true) -> (forall e, handler e = HOk) ->
    forall ms chunks,
      Forall msg_ok ms -> nonempty_chunks chunks ->
      List.concat chunks = flat_map wire ms ->
      run decodes handler chunks = (map event_of ms, Closed).
Proof. exact run_wires. Qed.
Print Assumptions wire_round_trip.

(** C02.  The text of a line command is percent-encoded without loss. *)
Theorem line_text_round_trip :
  forall text, Forall is_byte text -> unquote (quote net_safe text) = text.
Proof.
  intros text. apply quote_unquote. vm_compute.
  intros H. repeat (destruct H as [H|H]; [discriminate|]). exact H.
Qed.
Print Assumptions line_text_round_trip.

(** C02, the excluded case: an empty message ends the conversation, later messages are lost. *)
Theorem wire_empty_message_refuted :
  exists ms,
    run (fun _ => true) (fun _ => HOk) [flat_map wire ms] <> (map event_of ms, Closed).
Proof.
  exists [MJson []; MJson (lit "{}")]. vm_compute. discriminate.
Qed.
Print Assumptions wire_empty_message_refuted.

(** C37.  Once handling a message has killed the debugger, no later message is dispatched. *)
Theorem reader_silent_after_kill :
  forall (decodes : str -> bool) (handler : event -> hres) chunks pre e post,
    fst (run decodes handler chunks) = pre ++ e :: post ->
    dispatched e -> handler e = HKill -> post = [].
Proof. intros decodes handler chunks. apply kill_last. Qed.
Print Assumptions reader_silent_after_kill.

(** Non-trivial cases meeting the hypotheses. *)
Definition sample_msgs : list msg :=
  [MJson (lit "{""a"": 1}" ++ [10%N] ++ lit "Content-Length: -7" ++ [10%N]);
   MCmd 111 3 (lit "x" ++ [10; 37; 200]%N); MJson [0%N]].

Example sample_msgs_ok : Forall msg_ok sample_msgs.
Proof. repeat constructor; discriminate. Qed.

Example sample_chunks_ok :
  let s := flat_map wire sample_msgs in
  let chunks := [firstn 5 s; firstn 21 (skipn 5 s); skipn 26 s] in
  nonempty_chunks chunks /\ List.concat chunks = s /\
  run (fun _ => true) (fun _ => HOk) chunks = (map event_of sample_msgs, Closed).
Proof. vm_compute. repeat split; repeat constructor; discriminate. Qed.

Example kill_case :
  fst (run (fun _ => true) (fun e => match e with EvJson _ => HKill | _ => HOk end)
         [flat_map wire [MCmd 1 1 (lit "a"); MJson (lit "{}"); MCmd 2 3 (lit "b")]])
  = [EvCmd 1 1 (lit "a")] ++ EvJson (lit "{}") :: [].
Proof. vm_compute. reflexivity. Qed.

Example no_negative_case :
  no_negative_length (lit "Content-Length: 2" ++ crlf ++ crlf ++ lit "{}").
Proof.
  intros pre line post n E Hl Hs Hv.
  (* only the first line starts with the header name *)
  destruct pre as [|c pre].
  - simpl in E.
    assert (Hc := cut_line_make line post Hl). rewrite <- E in Hc. vm_compute in Hc.
    injection Hc as Hc _. assert (line = lit "Content-Length: 2" ++ [13%N]) as ->.
    { change (lit "Content-Length: 2" ++ [13%N]) with
        (removelast (lit "Content-Length: 2" ++ crlf)). vm_compute in Hc |- *.
      apply (f_equal (@removelast N)) in Hc. rewrite removelast_last in Hc. now rewrite <- Hc. }
    vm_compute in Hv. injection Hv as <-. discriminate.
  - exfalso. apply starts_with_spec in Hs. destruct Hs as [r ->].
    repeat match goal with
    | H : _ = _ |- _ => first [discriminate H | vm_compute in H; injection H as ? H; subst]
    end.
    repeat (destruct pre as [|? pre]; vm_compute in E;
            [discriminate E || (injection E; intros; discriminate)|
             try discriminate E; injection E as ? E]).
Qed.
