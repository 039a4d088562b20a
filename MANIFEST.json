{
 "claims": [
  {
   "property": "C01",
   "status": "proved",
   "theorems": [
    "C01_http_lookup_first_best",
    "C01_http_lookup_none",
    "C01_grpc_lookup_first_best",
    "C01_grpc_lookup_none"
   ],
   "note": "For every well-formed configuration (wildcard hosts built by parsing) lookup returns the first rule of maximal rank."
  },
  {
   "property": "C02",
   "status": "proved",
   "theorems": [
    "C02_exact_host",
    "C02_wildcard_host",
    "C02_wildcard_rejects_bare_name",
    "C02_host_rank"
   ],
   "note": "Equivalence of the matcher with the declarative host specification, and the rank order."
  },
  {
   "property": "C03",
   "status": "proved",
   "theorems": [
    "C03_prefix_segments",
    "C03_http_match"
   ],
   "note": "Segment-wise prefix matching and the complete HTTP matcher."
  },
  {
   "property": "C04",
   "status": "partial",
   "theorems": [
    "C04_precedence_partial",
    "C04_exact_beats_prefix_refuted"
   ],
   "note": "The lexicographic order that the code implements is proved. The claim that an exact path outranks a longer-or-equal prefix is refuted (C04_exact_beats_prefix_refuted): only path lengths are compared."
  },
  {
   "property": "C05",
   "status": "proved",
   "theorems": [
    "C05_grpc_match",
    "C05_grpc_post_only",
    "C05_grpc_rank",
    "C05_grpc_specific_wins",
    "C05_grpc_exact_path_refuted"
   ],
   "note": "gRPC matching and rank. The stronger reading that exactly /service/method is needed is refuted: further segments are ignored."
  },
  {
   "property": "C06",
   "status": "proved",
   "theorems": [
    "C06_modify_header"
   ],
   "note": "Exact characterisation of the values of every header name after the filter."
  },
  {
   "property": "C07",
   "status": "proved",
   "theorems": [
    "C07_redirect_sound",
    "C07_redirect_none_means_there_already",
    "C07_redirect_panics_only_without_path",
    "C07_redirect_total_refuted",
    "C07_replace_prefix_with_root_refuted"
   ],
   "note": "Target, status and no self redirect. Totality is refuted for authority-form (CONNECT) requests; the double slash of a root replacement is recorded."
  },
  {
   "property": "C08",
   "status": "partial",
   "theorems": [
    "C08_delay_bounds",
    "C08_delays_grow",
    "C08_stream",
    "C08_no_panic_partial",
    "C08_no_panic_refuted",
    "C08_reaches_max_refuted"
   ],
   "note": "Bounds, growth and stream proved for every draw. Absence of panics is proved as long as every deadline is a representable instant and the draw a representable duration (C08_no_panic_partial) and refuted in general; that the delay always reaches the maximum is refuted (doubling stops after 32 steps)."
  },
  {
   "property": "C09",
   "status": "proved",
   "theorems": [
    "C09_within_observed",
    "C09_finite_after_sample",
    "C09_finite_after_peak",
    "C09_peak_not_below_sample",
    "C09_projection_bounds",
    "C09_projection_decreases",
    "C09_stale_sample_ignored",
    "C09_stale_after_peak_refuted",
    "C09_decay_by_elapsed_time"
   ],
   "note": "Over the real numbers (f64 rounding is not modelled): range, finiteness, peaks never underestimated, projection, stale samples, decay by elapsed time. That samples older than the newest observation are always ignored is refuted: a peak can move the clock back (C09_stale_after_peak_refuted)."
  },
  {
   "property": "C10",
   "status": "proved",
   "theorems": [
    "C10_header_round_trip",
    "C10_header_round_trip_any_prefix",
    "C10_written_with_preface",
    "C10_no_preface_nothing_consumed",
    "C10_independent_of_segmentation",
    "C10_accepted_is_valid",
    "C10_unknown_fields"
   ],
   "note": "Round trip over arbitrary segmentation, no consumption without preface, validity of whatever is accepted. Protobuf groups are modelled as errors."
  },
  {
   "property": "C11",
   "status": "proved",
   "theorems": [
    "C11_reads_replay_prefix",
    "C11_prefix_first",
    "C11_end_only_at_end",
    "C11_peek"
   ],
   "note": "Conservation for every sequence of reads, including pending and failing polls, prefix first, end only at end."
  },
  {
   "property": "C12",
   "status": "proved",
   "theorems": [
    "C12_replay_same_body",
    "C12_capped_only_if_exceeded",
    "C12_refused_after_limit",
    "C12_reads_come_to_an_end",
    "C12_unread_replay_refuted"
   ],
   "note": "For every schedule of polls, clones and drops. The condition that something was read before the replay began is needed: otherwise the first chunk is given twice (C12_unread_replay_refuted)."
  },
  {
   "property": "C13",
   "status": "proved",
   "theorems": [
    "C13_buffer_bounded",
    "C13_exceeding_discards",
    "C13_exceeding_reported",
    "C13_capped_for_ever"
   ],
   "note": "Invariant over every schedule."
  },
  {
   "property": "C14",
   "status": "proved",
   "theorems": [
    "C14_at_most_limit",
    "C14_only_if_retryable",
    "C14_last_answer",
    "C14_retried_when_allowed",
    "C14_same_request",
    "C14_same_body",
    "C14_not_beyond_buffer",
    "C14_metrics",
    "C14_no_panic_partial",
    "C14_policy_responses",
    "C14_policy_errors",
    "C14_attempt_extensions",
    "C14_duplicated_body_refuted",
    "C14_no_panic_refuted",
    "C14_last_answer_refuted"
   ],
   "note": "Attempt limit, retry only after retryable answers, completeness, same request, metrics, for every behaviour of the service. The client gets the last attempt's answer except when the service fails while becoming ready for another attempt (C14_last_answer, C14_last_answer_refuted). Findings: a retry of an attempt that never read the body can duplicate the first chunk (C14_duplicated_body_refuted), and an attempt whose unread body is kept can make a later one panic (C14_no_panic_refuted)."
  },
  {
   "property": "C15",
   "status": "proved",
   "theorems": [
    "C15_durations",
    "C15_http_conditions",
    "C15_grpc_conditions",
    "C15_items_exist",
    "C15_headers_removed",
    "C15_not_allowed",
    "C15_configuration"
   ],
   "note": "Parsers characterised exactly against a grammar; the headers are removed exactly when the route honours them."
  },
  {
   "property": "C16",
   "status": "proved",
   "theorems": [
    "C16_history",
    "C16_clients",
    "C16_clients_now"
   ],
   "note": "Every log of the breaker together with its gate is a history of the specification (C16_history), from which the clients' view follows (C16_clients, C16_clients_now). Requests that were ready before the gate changed are the subject of C21."
  },
  {
   "property": "C17",
   "status": "proved",
   "theorems": [
    "C17_totals",
    "C17_reset",
    "C17_plain_counts",
    "C17_recent_counts",
    "C17_old_does_not_count"
   ],
   "note": "Totals equal the counts over ten slices of a tenth of the window; a slice saturates at 2^32-1. A response counts for nine to ten tenths of the window."
  },
  {
   "property": "C18",
   "status": "proved",
   "theorems": [
    "C18_history"
   ],
   "note": "As C16; the floating-point comparison is shown to be the exact rational one (uses the real-number axioms of the standard library through Flocq). Thresholds are in basis points, as the configuration quantises them."
  },
  {
   "property": "C19",
   "status": "partial",
   "theorems": [
    "C19_probe_decides_refuted",
    "C19_probe_decides_partial"
   ],
   "note": "Refuted as stated (C19_probe_decides_refuted: a response still in flight reopens the breaker). C19_probe_decides_partial adds the hypothesis that nothing is outstanding when the probe is allowed."
  },
  {
   "property": "C20",
   "status": "proved",
   "theorems": [
    "C20_retry_after",
    "C20_pushback",
    "C20_capped"
   ],
   "note": "Dates are read by another crate, which is a parameter."
  },
  {
   "property": "C21",
   "status": "proved",
   "theorems": [
    "C21_once",
    "C21_limited",
    "C21_limited_total",
    "C21_shut",
    "C21_shut_total",
    "C21_open_admits",
    "C21_limited_admits"
   ],
   "note": "Counted from when limit/shut has returned: C21_race shows that an old permit can still be handed out between the change and the close of the old semaphore, and C21_limited_total / C21_shut_total count those that were already ready or asking."
  },
  {
   "property": "C22",
   "status": "proved",
   "theorems": [
    "C22_fails_only",
    "C22_answers",
    "C22_gate",
    "C22_recovers",
    "C22_forwards",
    "C22_fails_after",
    "C22_gate_reopens_refuted"
   ],
   "note": "The task sees readiness, then poll_ready observes it: a request in between still fails fast (C22_demo). Dropping the service in failfast leaves the gate shut (C22_gate_reopens_refuted, a finding)."
  },
  {
   "property": "C23",
   "status": "proved",
   "theorems": [
    "C23_exact",
    "C23_latest",
    "C23_sent",
    "C23_removed",
    "C23_rebuilt",
    "C23_gauge",
    "C23_pick",
    "C23_pairs",
    "C23_distinct",
    "C23_idle",
    "C23_no_panic",
    "C23_call",
    "C23_stale_refuted",
    "C23_duplicate_refuted"
   ],
   "note": "Over every run of the pool. C23_stale_refuted: an older target is used until the service for the new one is ready. C23_duplicate_refuted: an update that repeats an address rebuilds its endpoint. tower's ReadyCache is modelled from its documented behaviour; it is not in /repo."
  },
  {
   "property": "C24",
   "status": "proved",
   "theorems": [
    "C24_fifo",
    "C24_answered",
    "C24_failfast",
    "C24_gate",
    "C24_terminal",
    "C24_told",
    "C24_no_panic",
    "C24_length",
    "C24_told_refuted"
   ],
   "note": "Over every interleaving of clients, worker, pool, discovery and clock. C24_answered says that there is a schedule (fairness of the runtime is not modelled). C24_told_refuted: when discovery fails while the gate is shut, the gate stays shut for ever and waiting clients are never told."
  },
  {
   "property": "C25",
   "status": "proved",
   "theorems": [
    "C25_gauges",
    "C25_zero"
   ],
   "note": "For every sequence of endpoints being made, polled (with errors) and dropped."
  },
  {
   "property": "C26",
   "status": "partial",
   "theorems": [
    "C26_no_panic",
    "C26_same",
    "C26_permanent",
    "C26_own",
    "C26_unheld",
    "C26_idle_partial",
    "C26_idle_refuted",
    "C26_no_leak"
   ],
   "note": "All interleavings of atomic steps. Refuted: an eviction is always preceded by a full idle period without handles (C26_idle_refuted); C26_idle_partial says exactly what period there is. Dropping the cache itself is not modelled."
  },
  {
   "property": "C27",
   "status": "proved",
   "theorems": [
    "C27_service",
    "C27_sent",
    "C27_first",
    "C27_random",
    "C27_draw",
    "C27_share",
    "C27_made",
    "C27_route",
    "C27_single_refuted",
    "C27_panics_refuted"
   ],
   "note": "Whole service histories with arbitrary readiness and draws. Refuted: a lone backend of weight zero gets no requests; every list of weights makes a distribution."
  },
  {
   "property": "C28",
   "status": "proved",
   "theorems": [
    "C28_authorized",
    "C28_first",
    "C28_ip_match",
    "C28_suffix",
    "C28_mapped",
    "C28_listed_refuted"
   ],
   "note": "Full characterization of is_authorized and of the first-match search over all policies, addresses and TLS states; suffixes, IPv4-mapped addresses. Refuted: identities listed with upper-case letters never match."
  },
  {
   "property": "C29",
   "status": "proved",
   "theorems": [
    "C29_log",
    "C29_revoked"
   ],
   "note": "Invariant over every interleaving of policy publications with accept/call/select steps; bounded response (two steps of the task) after revocation."
  },
  {
   "property": "C30",
   "status": "proved",
   "theorems": [
    "C30_verdict",
    "C30_one",
    "C30_forwarded"
   ],
   "note": "The request pipeline satisfies and is determined by an independent verdict relation; forwarded iff characterization. Route choice itself is C01-C05."
  },
  {
   "property": "C31",
   "status": "proved",
   "theorems": [
    "C31_outcomes",
    "C31_shared",
    "C31_total",
    "C31_bucket",
    "C31_independent",
    "C31_gcra",
    "C31_per_second_refuted",
    "C31_rejected_uses_total_refuted"
   ],
   "note": "Functional refinement for an arbitrary limiter (governor is another crate, a parameter), counting bounds, independence; window bound for a GCRA instance. Refuted: at most rps per second; rejected requests do not consume the total."
  },
  {
   "property": "C32",
   "status": "partial",
   "theorems": [
    "C32_steady_partial",
    "C32_panics",
    "C32_refuted"
   ],
   "note": "Refuted by C32_refuted; exact characterization of the panic (C32_panics) and correct destination when the policy does not change (C32_steady_partial). Missing: the property itself, which does not hold of the code."
  },
  {
   "property": "C33",
   "status": "proved",
   "theorems": [
    "C33_at_most_once",
    "C33_once",
    "C33_not_before",
    "C33_failure",
    "C33_overloaded",
    "C33_broken",
    "C33_elapsed",
    "C33_load",
    "C33_estimate",
    "C33_in_flight",
    "C33_error_refuted"
   ],
   "note": "Modelled: the whole biaser with PendingUntilFirstData, over real numbers (no rounding) and arbitrary, even unordered, clock readings. Failures are spelled out by status and gRPC status. C33_error_refuted: an error without a response is not penalized. Not modelled: the window between recording and releasing the reference in a handle's drop, and tower's PeakEwma."
  },
  {
   "property": "C34",
   "status": "partial",
   "theorems": [
    "C34_no_crash_refuted",
    "C34_crash_iff_empty_flags"
   ],
   "note": "Refuted as stated: a traceparent header with empty flags crashes the parser (C34_no_crash_refuted). Proved: that is the only way to crash (C34_crash_iff_empty_flags)."
  },
  {
   "property": "C35",
   "status": "proved",
   "theorems": [
    "C35_w3c_header_understood",
    "C35_grpc_header_understood",
    "C35_b3_headers_understood",
    "C35_forwarded_context_linked",
    "C35_other_headers_untouched",
    "C35_only_own_header_rewritten",
    "C35_untouched_without_context",
    "C35_missing_trace_id_refuted"
   ],
   "note": "W3C and gRPC headers written by an independent encoder are understood, the forwarded header decodes to the same trace with the new parent, all other headers are untouched. A binary header without trace id is forwarded undecodable (C35_missing_trace_id_refuted)."
  },
  {
   "property": "C36",
   "status": "partial",
   "theorems": [
    "C36_headers",
    "C36_headers_partial",
    "C36_end_refuted",
    "C36_earliest",
    "C36_body",
    "C36_request",
    "C36_request_ready",
    "C36_response_ready",
    "C36_body_ready"
   ],
   "note": "Refuted when the response timeout is shorter than the headers timeout (C36_end_refuted); proved otherwise."
  },
  {
   "property": "C37",
   "status": "proved",
   "theorems": [
    "C37_only"
   ],
   "note": "C37_only: never early; C36_body and C36_request: reported when polled after the idle period, and woken in time."
  },
  {
   "property": "C38",
   "status": "proved",
   "theorems": [
    "C38_http_detection_keeps_bytes",
    "C38_tls_detection_keeps_bytes",
    "C38_tls_then_http_keeps_bytes",
    "C38_http_detection_decision"
   ],
   "note": "TLS and HTTP detection, alone and in sequence, keep every byte; the HTTP decision is characterised. httparse is a parameter."
  },
  {
   "property": "C39",
   "status": "proved",
   "theorems": [
    "C39_answer_is_stable",
    "C39_answer_independent_of_segmentation",
    "C39_answer_of_stream"
   ],
   "note": "Stability of the answer and independence of segmentation."
  },
  {
   "property": "C40",
   "status": "partial",
   "theorems": [
    "C40_bounded_buffering_refuted",
    "C40_decided_early_or_never"
   ],
   "note": "Bounded buffering is refuted (C40_bounded_buffering_refuted); proved is that nothing beyond 8197 bytes can change the outcome."
  },
  {
   "property": "C41",
   "status": "proved",
   "theorems": [
    "C41_accepted_iff_valid",
    "C41_case_insensitive",
    "C41_reparse"
   ],
   "note": "Acceptance equivalent to the declarative grammar; case insensitivity; reparse."
  },
  {
   "property": "C42",
   "status": "proved",
   "theorems": [
    "C42_suffix_contains",
    "C42_name_match"
   ],
   "note": "Suffix containment equivalent to the declarative statement."
  },
  {
   "property": "C43",
   "status": "proved",
   "theorems": [
    "C43_round_trip",
    "C43_accepts_iff"
   ],
   "note": "Round trip of named addresses and characterisation of what is accepted."
  },
  {
   "property": "C44",
   "status": "proved",
   "theorems": [
    "C44_current",
    "C44_kept",
    "C44_lost",
    "C44_nothing",
    "C44_paced",
    "C44_same_backoff",
    "C44_new_backoff"
   ],
   "note": "Modelled: the whole of recover.rs as a machine of poll answers, with the client's view as a map. 'First endpoint update' is the first that is not a Remove, since leading removals are ignored (in debug builds they panic). Polling again after recover refused an error panics in the code and has no step here."
  },
  {
   "property": "C45",
   "status": "proved",
   "theorems": [
    "C45_new",
    "C45_buckets",
    "C45_report",
    "C45_latencies",
    "C45_concurrent",
    "C45_ms",
    "C45_us",
    "C45_wrap_refuted"
   ],
   "note": "For observations up to 2^53 (C45_wrap_refuted: larger ones wrap before the bucket is chosen); also for reports made while observations are added."
  },
  {
   "property": "C46",
   "status": "proved",
   "theorems": [
    "C46_wellformed_hello_name_found",
    "C46_wellformed_hello_without_name",
    "C46_no_decision_before_the_record_is_complete"
   ],
   "note": "Encoder of well-formed ClientHello records written independently; name found for every layout, nothing decided early."
  },
  {
   "property": "C47",
   "status": "partial",
   "theorems": [
    "C47_end_of_stream_sound",
    "C47_empty_from_the_start",
    "C47_advance",
    "C47_copy_partial",
    "C47_empty_frame_refuted",
    "C47_size_hint_refuted"
   ],
   "note": "End of stream and advance proved; copy_to_bytes proved for buffers without empty chunks (C47_copy_partial) and refuted otherwise (C47_empty_frame_refuted: it never finishes); the size hint is refuted (C47_size_hint_refuted)."
  },
  {
   "property": "C48",
   "status": "proved",
   "theorems": [
    "C48_same_frames",
    "C48_prefix",
    "C48_peeked_iff",
    "C48_end_of_stream",
    "C48_size_hint",
    "C48_hint_exact",
    "C48_end_known"
   ],
   "note": "For every body and poll pattern."
  },
  {
   "property": "C49",
   "status": "partial",
   "theorems": [
    "C49_tries_again",
    "C49_recovers_refuted"
   ],
   "note": "A shut breaker always tries again (C49_tries_again). That it cannot stay closed for ever is refuted (C49_recovers_refuted: the probe is cancelled)."
  },
  {
   "property": "C50",
   "status": "proved",
   "theorems": [
    "C50_classifier",
    "C50_one_class",
    "C50_class_unique",
    "C50_failed",
    "C50_at_most_one",
    "C50_dropped",
    "C50_missing_status_refuted"
   ],
   "note": "Exactly one class, the one specified, for every frame sequence. That a missing gRPC status is a failure is refuted (C50_missing_status_refuted)."
  },
  {
   "property": "C51",
   "status": "proved",
   "theorems": [
    "C51_localhost",
    "C51_exactly"
   ],
   "note": ""
  },
  {
   "property": "C52",
   "status": "proved",
   "theorems": [
    "C52_exactly",
    "C52_kept",
    "C52_gone",
    "C52_found",
    "C52_router",
    "C52_router_total",
    "C52_router_built"
   ],
   "note": "Hash maps are association lists; backend sets are lists without duplicates."
  },
  {
   "property": "C53",
   "status": "proved",
   "theorems": [
    "C53_requests",
    "C53_responses",
    "C53_latencies",
    "C53_settled",
    "C53_outcome_kept",
    "C53_wait_kept",
    "C53_cancelled",
    "C53_updated"
   ],
   "note": "Proved for every interleaving, with the classifier as a parameter; the latency histogram is the list of what is added to it. Refuted: every response has a latency; latency spans the response stream; requests >= responses."
  },
  {
   "property": "C54",
   "status": "proved",
   "theorems": [
    "C54_opened",
    "C54_open",
    "C54_closed",
    "C54_bytes",
    "C54_dropped",
    "C54_once",
    "C54_updated",
    "C54_all_bytes_refuted"
   ],
   "note": "Proved for every interleaving; each call's updates happen at once. Refuted: all bytes are counted."
  },
  {
   "property": "C55",
   "status": "proved",
   "theorems": [
    "C55_reported",
    "C55_in_use",
    "C55_lossless"
   ],
   "note": "Refinement: the store with its allocations and handles reports what a table by key says."
  },
  {
   "property": "C56",
   "status": "proved",
   "theorems": [
    "C56_history",
    "C56_address",
    "C56_distinct",
    "C56_port_refuted",
    "C56_metadata",
    "C56_order",
    "C56_identity_refuted",
    "C56_no_empty",
    "C56_h2_override"
   ],
   "note": "Refinement of every message history to 'the last message about the address announced it'; external parsers are parameters. Two refuted parts: ports modulo 2^16, identities silently dropped."
  },
  {
   "property": "C57",
   "status": "proved",
   "theorems": [
    "C57_plaintext",
    "C57_plaintext_direct",
    "C57_tls",
    "C57_address",
    "C57_header",
    "C57_gateway_refuted",
    "C57_discovered",
    "C57_client",
    "C57_session",
    "C57_forward"
   ],
   "note": "All clauses as equivalences over every endpoint; C57_discovered composes with C56 over every discovery history. The gateway-authority part is refuted."
  },
  {
   "property": "C58",
   "status": "proved",
   "theorems": [
    "C58_enforced",
    "C58_refused",
    "C58_stripped",
    "C58_absent",
    "C58_invalid_refuted",
    "C58_second_refuted"
   ],
   "note": "Enforcement and stripping over every header list; the unconditional reading is refuted twice (unparsable value, second value)."
  },
  {
   "property": "C59",
   "status": "proved",
   "theorems": [
    "C59_served",
    "C59_policy",
    "C59_end_to_end"
   ],
   "note": "Equivalence for who is served; end-to-end theorem composes with C10's decoder over every segmentation."
  },
  {
   "property": "C60",
   "status": "proved",
   "theorems": [
    "C60_round_trip",
    "C60_response",
    "C60_end_to_end",
    "C60_form",
    "C60_claimed_refuted",
    "C60_retried_refuted"
   ],
   "note": "round trip of requests and responses through both proxies; refuted parts are stated as _refuted"
  },
  {
   "property": "C61",
   "status": "proved",
   "theorems": [
    "C61_stripped",
    "C61_request",
    "C61_response",
    "C61_tunnel",
    "C61_once",
    "C61_second_refuted",
    "C61_connect_refuted",
    "C61_h2c_refuted",
    "C61_retried_refuted"
   ],
   "note": "stripping as an equivalence, both directions of messages, tunnels for every order of events; refuted parts are stated as _refuted"
  },
  {
   "property": "C62",
   "status": "proved",
   "theorems": [
    "C62_set",
    "C62_override",
    "C62_kept",
    "C62_normalized",
    "C62_served",
    "C62_scheme_refuted",
    "C62_claimed_refuted"
   ],
   "note": "the parser of authorities is a parameter; refuted parts are stated as _refuted"
  },
  {
   "property": "C63",
   "status": "proved",
   "theorems": [
    "C63_answer",
    "C63_pod",
    "C63_fixed",
    "C63_mixed_refuted",
    "C63_empty_refuted"
   ],
   "note": "the IPv6 parser is a parameter (that needs a colon); IPv4 texts are characterized; refuted parts are stated as _refuted"
  },
  {
   "property": "C64",
   "status": "proved",
   "theorems": [
    "C64_refresh",
    "C64_negative_ttl",
    "C64_retry",
    "C64_paced",
    "C64_order",
    "C64_goes_on",
    "C64_later_refuted",
    "C64_spaced_refuted"
   ],
   "note": "for every run; the exponential backoff's least wait is C08; refuted parts are stated as _refuted"
  },
  {
   "property": "C65",
   "status": "proved",
   "theorems": [
    "C65_decided",
    "C65_answered",
    "C65_passed",
    "C65_location",
    "C65_well_formed",
    "C65_private",
    "C65_told",
    "C65_failure",
    "C65_injected_grpc_refuted",
    "C65_injected_inbound_refuted",
    "C65_gateway_refuted",
    "C65_http1_refuted"
   ],
   "note": "the rules are stated as tables; refutations: an injected gRPC failure is 200 to other clients; an inbound injected failure is answered 500 and closes the connection; profile timeouts at a gateway are 500; HTTP/1.1 clients with a content type beginning application/grpc are told 200 through the mesh; a redirect to an invalid location panics"
  },
  {
   "property": "C66",
   "status": "proved",
   "theorems": [
    "C66_body",
    "C66_rescued",
    "C66_passed",
    "C66_unchanged",
    "C66_end"
   ],
   "note": "for every sequence of polls; a rescued stream does not close the connection even if the rule says so, since body.rs ignores it"
  },
  {
   "property": "C67",
   "status": "proved",
   "theorems": [
    "C67_headers",
    "C67_end_to_end"
   ],
   "note": "for every response, and end to end for every error that closes connections"
  },
  {
   "property": "C68",
   "status": "proved",
   "theorems": [
    "C68_latest",
    "C68_over",
    "C68_back",
    "C68_codes",
    "C68_paced",
    "C68_backoff",
    "C68_reset",
    "C68_hot_refuted",
    "C68_unread_refuted"
   ],
   "note": "Model of StreamWatch as a state machine over its awaits, for every Recover; the codes of the four users are separate. Two claims one might expect are refuted with witnesses for every n. Backoffs are abstract: that they do not end and how they grow is C18."
  },
  {
   "property": "C69",
   "status": "proved",
   "theorems": [
    "C69_item",
    "C69_error",
    "C69_timeout",
    "C69_end",
    "C69_items",
    "C69_initial_refuted"
   ],
   "note": "Model of LimitReceiveFuture and LimitReceiveStream over timed polls; Duration::MAX is taken as never. One claim is refuted: the initial limit ends streams when there is no idle limit."
  },
  {
   "property": "C70",
   "status": "proved",
   "theorems": [
    "C70_policy",
    "C70_own",
    "C70_shared",
    "C70_kept",
    "C70_starts",
    "C70_forgets_refuted"
   ],
   "note": "C70_forgets_refuted: a port not listed in the configuration falls back to the default policy after it was evicted as idle, until the control plane answers again."
  },
  {
   "property": "C71",
   "status": "proved",
   "theorems": [
    "C71_known",
    "C71_connections",
    "C71_requests",
    "C71_opaque",
    "C71_invalid",
    "C71_internal_refuted",
    "C71_authenticated_refuted",
    "C71_audit_refuted"
   ],
   "note": "Refuted variants: all-authenticated refuses SPIFFE identities, audit is refused without cluster networks, the invalid policy answers 403 and not an internal error."
  },
  {
   "property": "C72",
   "status": "proved",
   "theorems": [
    "C72_same",
    "C72_hash",
    "C72_labels",
    "C72_named",
    "C72_round",
    "C72_audit_refuted"
   ],
   "note": "C72_audit_refuted: equal resources may differ in is_audit."
  },
  {
   "property": "C73",
   "status": "proved",
   "theorems": [
    "C73_accepted",
    "C73_refused",
    "C73_becomes",
    "C73_connections",
    "C73_loopback",
    "C73_admits",
    "C73_forwards"
   ],
   "note": "Matches, hosts and filters of other crates are read or refused as parameters."
  },
  {
   "property": "C74",
   "status": "proved",
   "theorems": [
    "C74_taken",
    "C74_plain",
    "C74_open_refuted"
   ],
   "note": "The engine of regular expressions and the table of methods are parameters. Unicode white space is not modelled."
  },
  {
   "property": "C75",
   "status": "proved",
   "theorems": [
    "C75_whole",
    "C75_alternatives",
    "C75_literal",
    "C75_alternatives_refuted",
    "C75_escaped_refuted",
    "C75_repeated_refuted"
   ],
   "note": "For the core syntax of RegexModel.v, a model of the regex crate, which is not in /repo."
  },
  {
   "property": "C76",
   "status": "proved",
   "theorems": [
    "C76_budget",
    "C76_route",
    "C76_status_refuted"
   ],
   "note": "f32 ratios are rationals, NaN or infinite."
  },
  {
   "property": "C77",
   "status": "proved",
   "theorems": [
    "C77_targets",
    "C77_goes",
    "C77_backends",
    "C77_fails",
    "C77_fails_refuted",
    "C77_overrides"
   ],
   "note": "The metadata of parents and backends is not modelled."
  },
  {
   "property": "C78",
   "status": "proved",
   "theorems": [
    "C78_forwarded",
    "C78_buffered",
    "C78_only_failures",
    "C78_budget",
    "C78_bounded",
    "C78_same_request",
    "C78_same_body",
    "C78_not_beyond_buffer",
    "C78_duplicated_body_refuted",
    "C78_last_answer_refuted"
   ],
   "note": "tower's Retry loop and TpsBudget are not in /repo: the loop is modelled from its documentation and the budget's answers are left open."
  },
  {
   "property": "C79",
   "status": "proved",
   "theorems": [
    "C79_discovered",
    "C79_ingress",
    "C79_rejected",
    "C79_not_allowed",
    "C79_original",
    "C79_endpoint",
    "C79_ingress_profile"
   ],
   "note": ""
  },
  {
   "property": "C80",
   "status": "proved",
   "theorems": [
    "C80_current",
    "C80_in_order",
    "C80_ignored"
   ],
   "note": ""
  },
  {
   "property": "C81",
   "status": "proved",
   "theorems": [
    "C81_opaque",
    "C81_http",
    "C81_tls",
    "C81_not_looked_at",
    "C81_profile_stays",
    "C81_policy_stays",
    "C81_tls_stays",
    "C81_breaks",
    "C81_breaks_stable",
    "C81_disagreement_refuted",
    "C81_changed_refuted"
   ],
   "note": "'Every connection is served' is refuted: C81_breaks says exactly when the proxy panics instead (sidecar.rs:209, sidecar.rs:348, opaq.rs:131), with two witnesses."
  },
  {
   "property": "C82",
   "status": "proved",
   "theorems": [
    "C82_divided",
    "C82_policy",
    "C82_service"
   ],
   "note": ""
  },
  {
   "property": "C83",
   "status": "proved",
   "theorems": [
    "C83_named",
    "C83_original",
    "C83_malformed_refuted",
    "C83_required",
    "C83_served",
    "C83_not_http",
    "C83_fallback_refuted"
   ],
   "note": "Two parts are refuted: a malformed header is ignored, and a connection that is not HTTP panics if the policy is not for opaque traffic."
  },
  {
   "property": "C84",
   "status": "proved",
   "theorems": [
    "C84_duration",
    "C84_duration_exact",
    "C84_duration_refuted",
    "C84_duration_refused",
    "C84_duration_opt",
    "C84_bool",
    "C84_number",
    "C84_ports",
    "C84_suffixes",
    "C84_networks",
    "C84_ips",
    "C84_address",
    "C84_socket",
    "C84_sockets",
    "C84_identity"
   ],
   "note": "Everything but durations is unconditional; durations are exact below 2^64 seconds, C84_duration_refuted shows that they wrap beyond. IPv6, networks, URLs and floats are parameters."
  },
  {
   "property": "C85",
   "status": "proved",
   "theorems": [
    "C85_durations",
    "C85_numbers",
    "C85_bools",
    "C85_others",
    "C85_http2",
    "C85_ports",
    "C85_accepted",
    "C85_listen_addr_refuted",
    "C85_window_refuted",
    "C85_max_idle_refuted"
   ],
   "note": "Tables of settings in EnvSpec.v; C85_accepted is an equivalence. C85_listen_addr_refuted, C85_window_refuted and C85_max_idle_refuted show three surprises."
  },
  {
   "property": "C86",
   "status": "proved",
   "theorems": [
    "C86_clients",
    "C86_plaintext",
    "C86_trace"
   ],
   "note": ""
  },
  {
   "property": "C87",
   "status": "proved",
   "theorems": [
    "C87_identity",
    "C87_spire_backoff_refuted"
   ],
   "note": "C87_spire_backoff_refuted: the variables of SPIRE's backoff have a doubled prefix."
  },
  {
   "property": "C88",
   "status": "proved",
   "theorems": [
    "C88_limits",
    "C88_backoffs",
    "C88_sane"
   ],
   "note": ""
  },
  {
   "property": "C89",
   "status": "proved",
   "theorems": [
    "C89_attributes"
   ],
   "note": ""
  },
  {
   "property": "C90",
   "status": "proved",
   "theorems": [
    "C90_bytes",
    "C90_order"
   ],
   "note": "for every history of polls and every answer of the sockets, mid-poll too"
  },
  {
   "property": "C91",
   "status": "proved",
   "theorems": [
    "C91_half_close"
   ],
   "note": "for every history of polls and every answer of the sockets"
  },
  {
   "property": "C92",
   "status": "proved",
   "theorems": [
    "C92_done",
    "C92_all",
    "C92_waits",
    "C92_fails",
    "C92_ends",
    "C92_fair_refuted"
   ],
   "note": "done, waiting, failing and termination; fairness between the directions within a poll is refuted"
  },
  {
   "property": "C93",
   "status": "partial",
   "theorems": [
    "C93_flush_partial",
    "C93_resumed",
    "C93_flush_refuted"
   ],
   "note": "as stated it is false of the code (C93_flush_refuted: lib.rs:182 resets needs_flush after a second write that was not flushed); proved when no write was pending during the poll, and that incomplete flushes are resumed"
  },
  {
   "property": "C94",
   "status": "partial",
   "theorems": [
    "C94_first_best",
    "C94_none",
    "C94_name",
    "C94_wildcard",
    "C94_case_partial",
    "C94_case_refuted"
   ],
   "note": "Names are compared without regard to case only when the route's names are lower case (C94_case_refuted); everything else is proved in full."
  },
  {
   "property": "C95",
   "status": "proved",
   "theorems": [
    "C95_http",
    "C95_grpc",
    "C95_tls",
    "C95_match",
    "C95_match_grpc"
   ],
   "note": "HTTP, gRPC and TLS; opaque routes in C96. Regexes, header names and methods are parameters."
  },
  {
   "property": "C96",
   "status": "proved",
   "theorems": [
    "C96_accepted",
    "C96_accrual",
    "C96_retry_statuses",
    "C96_retry_codes"
   ],
   "note": "Acceptance and contents of every field; the metadata of a forwarded endpoint by reference to the endpoint model."
  },
  {
   "property": "C97",
   "status": "proved",
   "theorems": [
    "C97_backends",
    "C97_namespaces_refuted",
    "C97_http_router",
    "C97_grpc_router",
    "C97_opaque_router",
    "C97_tls_router",
    "C97_http_cached",
    "C97_opaque_cached",
    "C97_tls_cached",
    "C97_cached"
   ],
   "note": "Backends exact, router lookups equal, all targets cached; keeping namespaces apart is refuted."
  },
  {
   "property": "C98",
   "status": "proved",
   "theorems": [
    "C98_builds",
    "C98_zero_weights_refuted",
    "C98_destination_refuted",
    "C98_refused",
    "C98_invalid",
    "C98_invalid_builds"
   ],
   "note": "Panics characterized exactly; refuted that accepted messages never panic; refused ones fail all traffic."
  },
  {
   "property": "C99",
   "status": "proved",
   "theorems": [
    "C99_range",
    "C99_nearest",
    "C99_round_trip",
    "C99_trips",
    "C99_positive_refuted"
   ],
   "note": "Nearest multiple within 10^-11; positive staying positive is refuted."
  },
  {
   "property": "C100",
   "status": "proved",
   "theorems": [
    "C100_client",
    "C100_plaintext",
    "C100_server",
    "C100_refuses",
    "C100_routes",
    "C100_peers",
    "C100_own_identity_refuted"
   ],
   "note": "x509 parsing, chain validation and proof of possession are rustls' (parameters). C100_own_identity_refuted: a certificate that names the proxy second is accepted, but peers take the first name."
  },
  {
   "property": "C101",
   "status": "proved",
   "theorems": [
    "C101_good",
    "C101_refused",
    "C101_latest",
    "C101_ready",
    "C101_before",
    "C101_counted",
    "C101_given"
   ],
   "note": "publication is split into its atomic steps"
  },
  {
   "property": "C102",
   "status": "proved",
   "theorems": [
    "C102_delay",
    "C102_renews",
    "C102_kept",
    "C102_next",
    "C102_always_valid",
    "C102_expires_refuted",
    "C102_panic_refuted",
    "C102_panics"
   ],
   "note": "C102_expires_refuted and C102_panic_refuted are the false parts; request latency is arbitrary"
  },
  {
   "property": "C103",
   "status": "proved",
   "theorems": [
    "C103_source",
    "C103_current",
    "C103_progress",
    "C103_read",
    "C103_svid",
    "C103_each",
    "C103_lost_refuted"
   ],
   "note": "C103_lost_refuted is the false part; the stream's recovery is that of the other watches"
  },
  {
   "property": "C104",
   "status": "proved",
   "theorems": [
    "C104_discovered",
    "C104_invalid",
    "C104_failed",
    "C104_asked",
    "C104_none",
    "C104_request",
    "C104_client",
    "C104_connection"
   ],
   "note": "see the findings in DESIGN.md"
  },
  {
   "property": "C105",
   "status": "proved",
   "theorems": [
    "C105_loop",
    "C105_marked",
    "C105_once",
    "C105_bounded",
    "C105_joined_refuted",
    "C105_equals_refuted"
   ],
   "note": "see the findings in DESIGN.md"
  },
  {
   "property": "C106",
   "status": "proved",
   "theorems": [
    "C106_headers",
    "C106_no_panic",
    "C106_follow",
    "C106_policy_unused",
    "C106_opaque",
    "C106_endpoint",
    "C106_no_endpoint",
    "C106_opaque_panic_refuted"
   ],
   "note": "see the findings in DESIGN.md"
  },
  {
   "property": "C107",
   "status": "proved",
   "theorems": [
    "C107_local",
    "C107_changes",
    "C107_forbidden",
    "C107_shutdown",
    "C107_shutdown_kept",
    "C107_level",
    "C107_set",
    "C107_level_told",
    "C107_level_answer",
    "C107_shutdown_answer",
    "C107_receiver",
    "C107_whole_body_refuted"
   ],
   "note": "Guards by address, shutdown and log level, over all histories; that bodies are read as a whole is refuted. Parsing of filters is a parameter."
  },
  {
   "property": "C108",
   "status": "proved",
   "theorems": [
    "C108_ready",
    "C108_ready_forever",
    "C108_live",
    "C108_logs",
    "C108_metrics",
    "C108_gzip_refuted",
    "C108_environment",
    "C108_variables",
    "C108_environment_iff",
    "C108_private_refuted",
    "C108_accept_refuted",
    "C108_unknown",
    "C108_policy",
    "C108_changes",
    "C108_http"
   ],
   "note": "Readiness, metrics, environment and the port's policy; privacy of the environment, gzip;q=0 and a second accept are refuted. The text of the metrics is not modelled here."
  },
  {
   "property": "C109",
   "status": "proved",
   "theorems": [
    "C109_certified_first",
    "C109_serves",
    "C109_admin",
    "C109_tap",
    "C109_tap_configured",
    "C109_ready",
    "C109_spire_ready_refuted",
    "C109_stopped",
    "C109_no_new_refuted"
   ],
   "note": "All interleavings; SPIRE readiness and late connections are refuted. The crates tokio and drain are modelled by their documentation."
  },
  {
   "property": "C110",
   "status": "proved",
   "theorems": [
    "C110_asked",
    "C110_graceful",
    "C110_graceful_stopped",
    "C110_forced",
    "C110_deadline",
    "C110_can_end",
    "C110_uncertified",
    "C110_idle_refuted",
    "C110_tap_refuted"
   ],
   "note": "All histories, with a progress theorem; tap connections and shutdown before certification are refuted as findings."
  },
  {
   "property": "C111",
   "status": "proved",
   "theorems": [
    "C111_selects",
    "C111_accepts",
    "C111_observe",
    "C111_empty_refuted",
    "C111_networks_refuted",
    "C111_scheme_case_refuted"
   ],
   "note": "All messages of any nesting; three findings."
  },
  {
   "property": "C112",
   "status": "proved",
   "theorems": [
    "C112_first",
    "C112_order",
    "C112_complete",
    "C112_room",
    "C112_private",
    "C112_counts",
    "C112_ended",
    "C112_stays_ended",
    "C112_ends",
    "C112_cancelled_refuted",
    "C112_aborted_refuted",
    "C112_limit_refuted"
   ],
   "note": "All histories of one tap, at the grain of counting and reporting; completeness needs room in the channel, which limits up to 132 guarantee; three findings."
  },
  {
   "property": "C113",
   "status": "proved",
   "theorems": [
    "C113_offered",
    "C113_clean_refuted",
    "C113_permitted"
   ],
   "note": "Registry histories; access composed with C100's handshake model."
  },
  {
   "property": "C114",
   "status": "proved",
   "theorems": [
    "C114_identity",
    "C114_proved",
    "C114_dns",
    "C114_rest",
    "C114_hop_refuted"
   ],
   "note": "Composes the models of all the layers of the inbound HTTP stack; the hypothesis keeps says that the policy's own filters do not touch the header. One refuted reading is recorded."
  },
  {
   "property": "C115",
   "status": "proved",
   "theorems": [
    "C115_authorized",
    "C115_shown",
    "C115_refused",
    "C115_not_panics",
    "C115_lookup",
    "C115_version",
    "C115_host_partial",
    "C115_host_refuted",
    "C115_forged_refuted"
   ],
   "note": "Capacity limits and readiness are not modelled. That the host seen by the application is the policy's is proved for requests without the l5d-orig-proto note and refuted for the others."
  },
  {
   "property": "C116",
   "status": "proved",
   "theorems": [
    "C116_http_none",
    "C116_grpc_none",
    "C116_http",
    "C116_grpc",
    "C116_http_chosen",
    "C116_grpc_chosen",
    "C116_injected",
    "C116_built"
   ],
   "note": "Composes the models of routing, filters, distribution and backends. What a backend answers, draws and readiness are arbitrary; stream timeouts are C17's and concurrency is not modelled."
  },
  {
   "property": "C117",
   "status": "proved",
   "theorems": [
    "C117_http",
    "C117_grpc",
    "C117_no_overflow",
    "C117_kept_refuted",
    "C117_settings_http",
    "C117_settings_grpc"
   ],
   "note": "Composes C14-C16 with the outbound stack; one refuted reading is recorded. Backoff between attempts takes time that is not modelled."
  },
  {
   "property": "C118",
   "status": "partial",
   "theorems": [
    "C118_error",
    "C118_labels",
    "C118_code",
    "C118_trailers_refuted",
    "C118_hostname",
    "C118_text",
    "C118_text_grpc_partial",
    "C118_text_grpc_refuted"
   ],
   "note": "the text of outbound gRPC labels is not injective (refuted); characterized exactly by C118_text_grpc_partial"
  },
  {
   "property": "C119",
   "status": "proved",
   "theorems": [
    "C119_statuses",
    "C119_request_seconds",
    "C119_response_seconds",
    "C119_requests",
    "C119_frames",
    "C119_end",
    "C119_abandoned_refuted"
   ],
   "note": "for histories of any length; abandoned requests refuted"
  },
  {
   "property": "C120",
   "status": "proved",
   "theorems": [
    "C120_filtered",
    "C120_shed",
    "C120_backend",
    "C120_reaches",
    "C120_one",
    "C120_none",
    "C120_why",
    "C120_named",
    "C120_built_opaque",
    "C120_built_tls",
    "C120_ends",
    "C120_goes_on"
   ],
   "note": "the connectors below the backends are the environment's; retries do not exist here; detection of the name is C30's"
  },
  {
   "property": "C121",
   "status": "partial",
   "theorems": [
    "C121_opened",
    "C121_closed",
    "C121_each",
    "C121_dropped_refuted",
    "C121_text_partial",
    "C121_text_refuted",
    "C121_namespace_refuted",
    "C121_shared_refuted"
   ],
   "note": "counts are exact; a connection that is dropped is never counted as closed, and different series can have the same text (both refuted with witnesses); C121_text_partial is what holds"
  },
  {
   "property": "C122",
   "status": "proved",
   "theorems": [
    "C122_failed",
    "C122_closed",
    "C122_outbound",
    "C122_inbound",
    "C122_error_text",
    "C122_closed_text",
    "C122_timeout_refuted"
   ],
   "note": "the kinds are exact; that the timeouts of policies count as timeouts is refuted"
  },
  {
   "property": "C123",
   "status": "partial",
   "theorems": [
    "C123_read_partial",
    "C123_grouped",
    "C123_unescaped_refuted",
    "C123_forged_refuted"
   ],
   "note": "proved when no value has a quote, a backslash or a newline in it; refuted otherwise"
  },
  {
   "property": "C124",
   "status": "partial",
   "theorems": [
    "C124_once_partial",
    "C124_zone_refuted",
    "C124_dot_refuted"
   ],
   "note": "proved when the keys differ in what of them is in the text, which leaves out the zone and the last dot of a name; refuted otherwise"
  },
  {
   "property": "C125",
   "status": "proved",
   "theorems": [
    "C125_latest",
    "C125_lost_refuted",
    "C125_settles",
    "C125_forward",
    "C125_steady",
    "C125_cloned"
   ],
   "note": "The inner services are known by the value they were made from. Whether a value that was not seen is told after the sender is gone is a parameter: with it the property holds, without it C125_lost_refuted."
  },
  {
   "property": "C126",
   "status": "proved",
   "theorems": [
    "C126_primary",
    "C126_secondary",
    "C126_total",
    "C126_no_panic",
    "C126_requests",
    "C126_gap_refuted"
   ],
   "note": "The two services are given by their answers; time is in milliseconds. C126_gap_refuted: the time includes that in which nobody polls."
  },
  {
   "property": "C127",
   "status": "partial",
   "theorems": [
    "C127_polls",
    "C127_dropped_partial",
    "C127_not_too_many",
    "C127_race_refuted",
    "C127_millis",
    "C127_waits",
    "C127_rounding_refuted"
   ],
   "note": "The number of drops is exact when no two services of a family are dropped at the same time (C127_dropped_partial); otherwise it may be too small (C127_race_refuted) but not too large (C127_not_too_many). The sum of the times is of times rounded down."
  },
  {
   "property": "C128",
   "status": "proved",
   "theorems": [
    "C128_in_order",
    "C128_batches",
    "C128_timely",
    "C128_not_sooner",
    "C128_last_refuted",
    "C128_failed_refuted"
   ],
   "note": "Order, size and time of the batches are proved for every history; that every span is sent in the end is not part of it: C128_last_refuted (the last batch) and C128_failed_refuted (failed calls)."
  },
  {
   "property": "C129",
   "status": "partial",
   "theorems": [
    "C129_converted",
    "C129_exported",
    "C129_long_refuted",
    "C129_counters_refuted"
   ],
   "note": "C129_converted and C129_exported are exact; the claim fails for longer trace ids (C129_long_refuted) and for the counters (C129_counters_refuted)."
  },
  {
   "property": "C130",
   "status": "proved",
   "theorems": [
    "C130_ready",
    "C130_after_a_wait",
    "C130_backs_off",
    "C130_errors",
    "C130_returns",
    "C130_timer",
    "C130_flapping_refuted"
   ],
   "note": "The services and the backoffs are given by their answers. Growth is until a service is ready: C130_flapping_refuted. C130_backs_off is for backoffs that do not end, which is so for the ones the proxy uses."
  },
  {
   "property": "C131",
   "status": "proved",
   "theorems": [
    "C131_lines",
    "C131_off",
    "C131_quote_refuted"
   ],
   "note": "the line of each response can be read back; a quotation mark in a path lets a client forge fields (C131_quote_refuted)"
  },
  {
   "property": "C132",
   "status": "proved",
   "theorems": [
    "C132_format",
    "C132_objects",
    "C132_processing",
    "C132_trace_id_refuted"
   ],
   "note": "the objects say exactly what the spec says; the id of a trace that is not ASCII hides the others (C132_trace_id_refuted)"
  },
  {
   "property": "C133",
   "status": "proved",
   "theorems": [
    "C133_own_answer",
    "C133_shared",
    "C133_one_lookup",
    "C133_evicted",
    "C133_anew",
    "C133_failed_refuted"
   ],
   "note": "a failed discovery is remembered (C133_failed_refuted); eviction is taken as one prompt step, whose details C26 has"
  },
  {
   "property": "C134",
   "status": "proved",
   "theorems": [
    "C134_number",
    "C134_within",
    "C134_scheduler",
    "C134_max_refuted"
   ],
   "note": "parsing of f64 and the product with a ratio are parameters"
  },
  {
   "property": "C135",
   "status": "partial",
   "theorems": [
    "C135_in_use",
    "C135_route",
    "C135_first",
    "C135_live",
    "C135_kept_partial",
    "C135_anew",
    "C135_kept_refuted"
   ],
   "note": "The last part is refuted (C135_kept_refuted): a route keeps its proxy only while the profile is not updated (C135_kept_partial, C135_anew). All else is proved."
  },
  {
   "property": "C136",
   "status": "proved",
   "theorems": [
    "C136_each",
    "C136_given",
    "C136_same_client",
    "C136_way",
    "C136_live",
    "C136_errors",
    "C136_mapped_refuted"
   ],
   "note": "What the system says of a socket is an input. What an allowed set of mapped addresses does is refuted (C136_mapped_refuted)."
  },
  {
   "property": "C137",
   "status": "partial",
   "theorems": [
    "C137_outbound",
    "C137_limit",
    "C137_loopback_partial",
    "C137_loopback_refuted",
    "C137_inbound",
    "C137_inbound_limit",
    "C137_loop"
   ],
   "note": "That the outbound proxy makes no connection on the loopback interface is refuted for IPv4-mapped addresses (C137_loopback_refuted), and proved for 127.0.0.0/8 and ::1 (C137_loopback_partial). All else is proved."
  },
  {
   "property": "C138",
   "status": "partial",
   "theorems": [
    "C138_chosen",
    "C138_fresh",
    "C138_broken",
    "C138_overloaded",
    "C138_fades_partial",
    "C138_penalty_decay",
    "C138_fades_refuted",
    "C138_small_refuted"
   ],
   "note": "a penalty fades with the decay of round trip times and not with the policy's decay of penalties, which has no effect; and counts in whole milliseconds"
  },
  {
   "property": "C139",
   "status": "proved",
   "theorems": [
    "C139_bytes",
    "C139_series",
    "C139_once",
    "C139_zone"
   ],
   "note": ""
  },
  {
   "property": "C140",
   "status": "proved",
   "theorems": [
    "C140_same",
    "C140_one",
    "C140_own",
    "C140_through",
    "C140_freed"
   ],
   "note": ""
  },
  {
   "property": "C141",
   "status": "proved",
   "theorems": [
    "C141_consecutive",
    "C141_unified",
    "C141_jitter",
    "C141_absent"
   ],
   "note": ""
  },
  {
   "property": "C142",
   "status": "proved",
   "theorems": [
    "C142_labels",
    "C142_distinct",
    "C142_credentials",
    "C142_host_credentials",
    "C142_other_headers",
    "C142_spans",
    "C142_sent",
    "C142_not_sent",
    "C142_bounded",
    "C142_query_refuted",
    "C142_address_refuted",
    "C142_failed_refuted"
   ],
   "note": "labels, redaction and spans in full; that queries are exported in full, that a request without a host header has no address and that failed requests have no span are shown beside it"
  },
  {
   "property": "C143",
   "status": "partial",
   "theorems": [
    "C143_no_deadlock_partial",
    "C143_finishes_partial",
    "C143_no_updates",
    "C143_deadlock_refuted",
    "C143_forever",
    "C143_only_way"
   ],
   "note": "no deadlock without terminations and rate-limited requests, or without updates; with both the claim is false of the code (refuted)"
  },
  {
   "property": "C144",
   "status": "partial",
   "theorems": [
    "C144_counters",
    "C144_increments",
    "C144_series",
    "C144_connections",
    "C144_requests",
    "C144_connection_totals",
    "C144_terminate_total",
    "C144_request_totals",
    "C144_limited_total",
    "C144_monotone",
    "C144_answers",
    "C144_check",
    "C144_published",
    "C144_name_partial",
    "C144_name_refuted",
    "C144_connection_name_refuted"
   ],
   "note": "Proved but for the name: a denial may be counted under the name of a newer policy (C144_name_refuted)."
  },
  {
   "property": "C145",
   "status": "partial",
   "theorems": [
    "C145_lines",
    "C145_accounted",
    "C145_room",
    "C145_bounded",
    "C145_alone",
    "C145_registered",
    "C145_idle",
    "C145_hang_up_partial",
    "C145_quiet",
    "C145_hang_up_refuted",
    "C145_report",
    "C145_one_line_refuted"
   ],
   "note": "The full statement is refuted of the code in two places: a stream whose client has gone is given up only at the next line that passes its filter (C145_hang_up_refuted; C145_hang_up_partial says when it is), and the report of lost lines is not a line (C145_one_line_refuted). All else is proved for every history."
  },
  {
   "property": "C146",
   "status": "partial",
   "theorems": [
    "C146_endpoint",
    "C146_accepted",
    "C146_local",
    "C146_unset",
    "C146_limited_refuted",
    "C146_usable_refuted"
   ],
   "note": "Refuted of the code in two places: settings are not checked where they are read, so some that are accepted make every connection panic (C146_usable_refuted; C146_endpoint and C146_accepted say exactly which), and a server without a configured limit of streams lifts the library's (C146_limited_refuted). What hyper's builders do is as its documentation says."
  },
  {
   "property": "C147",
   "status": "partial",
   "theorems": [
    "C147_plaintext",
    "C147_authenticated",
    "C147_connects",
    "C147_addresses",
    "C147_origin",
    "C147_authority",
    "C147_dotted",
    "C147_reachable_refuted",
    "C147_queue_refuted"
   ],
   "note": "Addresses, authentication, plaintext and requests are proved in full. Refuted of the code: a configured name with a final dot is accepted and can never be proved by a server (C147_reachable_refuted), and the configured queue is not used (C147_queue_refuted)."
  },
  {
   "property": "C148",
   "status": "partial",
   "theorems": [
    "C148_limit",
    "C148_answers",
    "C148_once",
    "C148_settled",
    "C148_shed",
    "C148_counted",
    "C148_bodies_refuted",
    "C148_policy_refuted",
    "C148_timeout_refuted"
   ],
   "note": "The limit, the answers and the counters are proved for all histories of both servers; that responses' bodies are within the limit, that what policies do on purpose is not counted as an error and that policies' timeouts are counted as timeouts are refuted (C148_bodies_refuted, C148_policy_refuted, C148_timeout_refuted)."
  },
  {
   "property": "C149",
   "status": "partial",
   "theorems": [
    "C149_override",
    "C149_canonical",
    "C149_agreed",
    "C149_overridden",
    "C149_forged_refuted"
   ],
   "note": "Overriding of a header by the proxy's target, canonical names, their agreement with what the peer's proxy routes by, and the removal of overrides are proved; the last sentence, that an application cannot make the next proxy take a request for one to another service, is refuted where there is no profile: C149_forged_refuted."
  },
  {
   "property": "C150",
   "status": "partial",
   "theorems": [
    "C150_settings",
    "C150_access",
    "C150_access_refuted",
    "C150_says",
    "C150_order",
    "C150_order_refuted"
   ],
   "note": "Settings, the text of times and their order for the first million seconds are proved; that a valid format is enough for an access log, and that the order of texts is that of times without bound, are refuted: C150_access_refuted, C150_order_refuted."
  },
  {
   "property": "C151",
   "status": "partial",
   "theorems": [
    "C151_upgraded",
    "C151_table",
    "C151_inbound",
    "C151_two_proxies",
    "C151_ends",
    "C151_ends_refuted",
    "C151_bodies",
    "C151_body_reset"
   ],
   "note": "Answers for, and resets by, every chain of errors of transports are proved, through one and two proxies and for bodies; that an application of HTTP/1 never sees an error of HTTP/2 is refuted for errors of h2 without a reason: C151_ends_refuted."
  },
  {
   "property": "C152",
   "status": "partial",
   "theorems": [
    "C152_once",
    "C152_lazily",
    "C152_ready",
    "C152_broken",
    "C152_unreachable_refuted"
   ],
   "note": "Proved for all histories; that every poll gets to the service is refuted after a panic while building: C152_unreachable_refuted."
  }
 ]
}