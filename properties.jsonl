{"id": "C01", "title": "14-bit SysEx parameter values survive set and parse", "statement": "Setting a SysEx-controlled parameter to any value from 0 to 16383 sends a message that keeps the template's manufacturer id and first six data bytes, carries only 7-bit bytes in the two value positions, and is decoded back to exactly the same value by every numeric mapping listening on the same address. Values outside that range are not representable: below 0 or above 32767 the set raises and nothing is sent, and 16384..32767 produces a byte that is not a MIDI data byte.", "quantifier": "all values (any integer), all set templates with 6 to 8 data bytes, all response templates with the same manufacturer and address", "why_tests_cant": "16384 values times every template; a test samples a few and would miss a wrong carry at 127/128 or a template-length effect", "anchors": ["content/lib/pyswitch/controller/client.py: ClientParameterMapping.set_value, __set_value, parse, parse_against"]}
{"id": "C02", "title": "A message changes a parameter only when it is addressed to it", "statement": "An incoming message updates a parameter mapping if and only if it has the kind of the mapping's response template and the same address (controller number for CC; manufacturer id plus data bytes 2..5 for SysEx; any program for PC). Otherwise the stored value is untouched and the message is reported as not used. When it matches, the stored value is the addressed value: CC value, PC patch, 128*second-last+last data byte for numeric SysEx, the characters between the address and the final byte for string SysEx.", "quantifier": "all messages of any kind and length, all response templates, all prior values", "why_tests_cant": "the space of messages and templates is unbounded (SysEx has arbitrary length)", "anchors": ["content/lib/pyswitch/controller/client.py: ClientParameterMapping.parse, parse_against"]}
{"id": "C03", "title": "Rig id is assembled from bank-select then program-change only", "statement": "For a two-part mapping fed with any message history, the published value is always 128*c+p for the program change p that most recently arrived after an as yet unconsumed bank-select CC value c (the latest such CC), a program change without a pending bank-select CC is ignored, and listeners may be notified only when the second half has arrived.", "quantifier": "all finite histories of messages of every kind", "why_tests_cant": "the property is about every interleaving of the two halves with foreign traffic", "anchors": ["content/lib/pyswitch/controller/client.py: ClientTwoPartParameterMapping.parse, result_finished", "content/lib/pyswitch/clients/kemper/__init__.py: KemperMappings.RIG_ID"]}
{"id": "C04", "title": "Mappings are unique per name", "statement": "Asking for a mapping by name any number of times, in any order with any other arguments, always yields the object created by the first request for that name; distinct names yield distinct objects; previously created mappings are never changed by later requests.", "quantifier": "all sequences of mapping requests", "why_tests_cant": "needs all request sequences", "anchors": ["content/lib/pyswitch/controller/client.py: ClientParameterMapping.get, ClientTwoPartParameterMapping.get"]}
{"id": "C05", "title": "At most one outstanding request per parameter", "statement": "After any sequence of client operations there is at most one outstanding request for each parameter mapping, no listener is enlisted twice in the same request, and no request stays behind in a finished state.", "quantifier": "all sequences of request/register/receive operations over any number of mappings and listeners, with any clock readings", "why_tests_cant": "quantifies over all operation histories", "anchors": ["content/lib/pyswitch/controller/client.py: Client.request, register, _register_mapping, receive, get_matching_request", "content/lib/pyswitch/misc.py: EventEmitter"]}
{"id": "C06", "title": "Every asker is answered or told about termination, exactly once", "statement": "In any operation history, each listener that asks for a parameter while no answer is outstanding is afterwards notified exactly once for that outstanding request: with the value when the answer arrives, or with a termination when the request times out; never both, never twice, and it stays enlisted until then.", "quantifier": "all histories of client operations for mappings without a dependency", "why_tests_cant": "needs every interleaving of asks, answers and timeouts", "anchors": ["content/lib/pyswitch/controller/client.py: Client.request, receive, ClientRequest.parse, terminate"]}
{"id": "C07", "title": "A request message is sent once per outstanding request", "statement": "Asking for a parameter sends the request message exactly when no request for it is outstanding; while one is outstanding further asks send nothing. Over a whole history the number of request messages sent for a parameter equals the number of requests answered plus terminated plus outstanding.", "quantifier": "all histories", "why_tests_cant": "counting argument over unbounded histories", "anchors": ["content/lib/pyswitch/controller/client.py: Client._register_mapping, ClientRequest.send"]}
{"id": "C08", "title": "Requests time out, but never early", "statement": "A request with limited lifetime is never terminated before its lifetime has fully elapsed. If the client keeps being polled, then at the first poll where both the request lifetime and the clean-up period (half a lifetime) have elapsed the request is terminated and all its listeners are told.", "quantifier": "all clock readings, lifetimes and poll schedules", "why_tests_cant": "timing schedules are unbounded", "anchors": ["content/lib/pyswitch/controller/client.py: Client.receive, __cleanup_hanging_requests, ClientRequest.terminate", "content/lib/pyswitch/misc.py: PeriodCounter"]}
{"id": "C09", "title": "Permanent registrations never disappear", "statement": "A mapping registered without request message stays registered forever with all its listeners, and every matching message notifies each of those listeners exactly once, in order of registration.", "quantifier": "all histories after the registration", "why_tests_cant": "a liveness-like claim over unbounded histories", "anchors": ["content/lib/pyswitch/controller/client.py: Client.register, ClientRequest.parse"]}
{"id": "C10", "title": "Foreign messages have no effect on the client", "statement": "A message that no outstanding request is waiting for changes no stored parameter value, notifies nobody, and leaves the outstanding requests unchanged (timeouts aside); the client reports it as not used, so that the protocol gets to see it.", "quantifier": "all messages, all client states reachable by any history", "why_tests_cant": "all states times all messages", "anchors": ["content/lib/pyswitch/controller/client.py: Client.receive, BidirectionalClient.receive"]}
{"id": "C11", "title": "Dependent parameters are requested when their dependency changes", "statement": "Asking for a parameter that depends on another one requests the other one instead; the dependent request is sent when (and only when) the other value differs from the one seen last. Every listener that asked is notified with the dependent value.", "quantifier": "all histories with dependent mappings, any number of listeners", "why_tests_cant": "multi-listener histories; the unit tests use one listener", "anchors": ["content/lib/pyswitch/controller/client.py: Client.request, _DependencyListener"]}
{"id": "C12", "title": "Setting a parameter feeds back immediately and sends once", "statement": "With bidirectional communication, setting a registered parameter handled by the protocol sends its set message exactly once to every route, stores the new value and notifies each registered listener exactly once; for parameters not handled by the protocol nothing is fed back; setting a parameter without set message sends nothing.", "quantifier": "all mappings, values and client states", "why_tests_cant": "all states and listener lists", "anchors": ["content/lib/pyswitch/controller/client.py: Client.set, BidirectionalClient.set"]}
{"id": "C13", "title": "Loss of connection is signalled to every bidirectional listener", "statement": "When the protocol reports a lost connection, every listener of every registered protocol-handled mapping is told exactly once, no other listener is told, and the registrations survive so that later messages are delivered again.", "quantifier": "all client states", "why_tests_cant": "all registrations", "anchors": ["content/lib/pyswitch/controller/client.py: BidirectionalClient.notify_connection_lost"]}
{"id": "C14", "title": "Bidirectional protocol timing", "statement": "In any history of updates and received messages with a monotonic clock: initial beacons are more than 5 s apart, keep-alive beacons are sent only while connected and more than half a lease apart, the connection is declared lost at the first update more than 1.5 s after the last sensing message and never earlier, and a connection is considered established only after a beacon has been sent and a sensing message received. Lost-connection notifications are issued only if a connection had been established before.", "quantifier": "all schedules of updates, messages and clock readings; all lease times", "why_tests_cant": "all schedules", "anchors": ["content/lib/pyswitch/clients/kemper/__init__.py: KemperBidirectionalProtocol.update, receive"]}
{"id": "C15", "title": "Beacon content", "statement": "Every beacon is addressed with function 0x7e, command 0x40 and parameter set 2; its flag byte has the sysex bit set, the init bit set exactly on initial beacons, the tuner bit as configured and all others clear; the lease byte is half the lease seconds rounded down and is a MIDI data byte for every lease from 0 to 255 seconds.", "quantifier": "all flags and lease values", "why_tests_cant": "all combinations", "anchors": ["content/lib/pyswitch/clients/kemper/__init__.py: KemperBidirectionalProtocol.__send_beacon, __get_flags, __encode_time_lease"]}
{"id": "C16", "title": "Outgoing messages reach exactly the routed targets", "statement": "A message sent by the application is handed exactly once per application routing to that routing's target, in the order of the routings, and to nobody else.", "quantifier": "all routing tables, all messages", "why_tests_cant": "all routing tables", "anchors": ["content/lib/pyswitch/controller/midi.py: MidiController.send"]}
{"id": "C17", "title": "Incoming messages are forwarded once and in order", "statement": "Per poll each distinct external source is read exactly once; what was read is forwarded exactly once to each of its targets, in source order, except empty reads, unknown events and messages without status. Over any number of polls every target receives exactly the forwardable messages of its sources, per source in order, and each message the application receives is the next one of its source's stream. Messages read by the external routings never reach the application and vice versa.", "quantifier": "all routing tables, all device message streams, all numbers of polls", "why_tests_cant": "all stream interleavings", "anchors": ["content/lib/pyswitch/controller/midi.py: MidiController.receive, __process_external_routings"]}
{"id": "C18", "title": "A device routed both externally and to the application", "statement": "If a device is the source of an external routing and of an application routing, every message it delivers reaches both the external target and the application.", "quantifier": "all routing tables with a shared source, all streams", "why_tests_cant": "needs streams longer than one message", "anchors": ["content/lib/pyswitch/controller/midi.py: MidiController.receive"]}
{"id": "C19", "title": "Incoming traffic is processed in bounded bursts, losing nothing", "statement": "Each pass hands every message it takes from the MIDI layer to the client exactly once, in order, polls every input once before each message is taken, takes at most maxConsecutiveMidiMessages+1 messages and stops earlier only when the MIDI layer had none. Over any number of ticks the messages delivered to the client are exactly the messages taken from the MIDI layer in order, starting from the first.", "quantifier": "all message backlogs, all limits, all numbers of ticks and updateables", "why_tests_cant": "all backlogs", "anchors": ["content/lib/pyswitch/controller/controller.py: Controller.tick, __receive_midi_messages"]}
{"id": "C20", "title": "Periodic updates", "statement": "In a tick either nothing is updated, or every registered updateable is updated exactly once in registration order with a message pass before each; consecutive updates are always more than the update interval apart, and a tick more than the interval after the last update does update.", "quantifier": "all tick schedules and clock readings", "why_tests_cant": "all schedules", "anchors": ["content/lib/pyswitch/controller/controller.py: Controller.tick", "content/lib/pyswitch/misc.py: PeriodCounter, Updater"]}
{"id": "C21", "title": "Startup drains the input buffers", "statement": "With buffer clearing on, initialisation returns only when a poll of the MIDI layer yielded nothing, having discarded exactly the messages before that; no discarded message reaches the client; with it off no message is taken.", "quantifier": "all backlogs", "why_tests_cant": "all backlogs", "anchors": ["content/lib/pyswitch/controller/controller.py: Controller.init"]}
{"id": "C22", "title": "Period counters fire once per elapsed interval", "statement": "A period counter reports expiry exactly when strictly more than its interval has passed since the later of the last reset and the last reported expiry; two reported expiries are therefore more than an interval apart, for any clock readings.", "quantifier": "all call histories and clocks", "why_tests_cant": "all histories", "anchors": ["content/lib/pyswitch/misc.py: PeriodCounter"]}
{"id": "C23", "title": "Push button modes", "statement": "For any history of presses, releases and device feedback: ENABLE always ends on and never turns off; DISABLE the reverse; LATCH toggles per press and ignores releases; MOMENTARY is on exactly from press to release; MOMENTARY_INVERSE the reverse; HOLD_MOMENTARY toggles on press and toggles back on release iff held longer than the hold time; ONE_SHOT is off between presses; NO_STATE_CHANGE never changes the state.", "quantifier": "all histories and clocks, all modes", "why_tests_cant": "all histories", "anchors": ["content/lib/pyswitch/controller/actions/__init__.py: PushButtonAction.push, release, state, feedback_state, reset"]}
{"id": "C24", "title": "A state command is sent exactly when the user changes the state", "statement": "A push button sends one command per actual state change caused by the user, carrying the new state, none when the state stays the same (except ONE_SHOT, which sends exactly one on command per press and never an off command), and none on device feedback or reset.", "quantifier": "all histories, all modes", "why_tests_cant": "all histories", "anchors": ["content/lib/pyswitch/controller/actions/__init__.py: PushButtonAction.state, feedback_state, push, release, reset"]}
{"id": "C25", "title": "Plain switches: one push and one release per press", "statement": "For a switch without hold actions and any sequence of polls, every enabled action gets exactly one push at each off-to-on transition and exactly one release at each on-to-off transition of the hardware state, in action order, and nothing while the state stays; pushes and releases of an action that stays enabled strictly alternate starting with push.", "quantifier": "all poll sequences, all action lists, all enablement patterns", "why_tests_cant": "all poll sequences", "anchors": ["content/lib/pyswitch/controller/inputs.py: SwitchController.process"]}
{"id": "C26", "title": "Short press or hold, never both", "statement": "For a switch with hold actions and no repeat, each press triggers exactly one of: the normal actions once (push then release, at release, when the press did not exceed the hold time), or the hold actions once (push then release, at the first poll after the hold time). ", "quantifier": "all poll schedules and clocks, all hold times", "why_tests_cant": "all schedules", "anchors": ["content/lib/pyswitch/controller/inputs.py: SwitchController.process, __check_hold"]}
{"id": "C27", "title": "Repeating hold actions", "statement": "With holdRepeat, hold actions fire repeatedly while the switch is held, more than the hold time apart; the normal actions are never triggered by a press that triggered hold actions; each press is independent of the previous one.", "quantifier": "all poll schedules and clocks", "why_tests_cant": "the failing schedules need the hold to be detected first at release time", "anchors": ["content/lib/pyswitch/controller/inputs.py: SwitchController.process, __check_hold"]}
{"id": "C28", "title": "Overriding a switch", "statement": "While an override is set whose push and release decline further processing, no action of the switch is pushed or released; override push/release follow the hardware edges exactly. A press begun under an override must not influence presses after it is removed.", "quantifier": "all poll schedules with the override appearing/disappearing at any time", "why_tests_cant": "override may change at any point of a press", "anchors": ["content/lib/pyswitch/controller/inputs.py: SwitchController.process", "content/lib/pyswitch/clients/kemper/__init__.py: TunerDisplayCallback.push, release, parameter_changed"]}
{"id": "C29", "title": "LEDs of a switch are shared without overlap", "statement": "The LED segments of the enabled LED-using actions of a switch are pairwise disjoint and within the switch; if there is at least one such action, every LED belongs to exactly one action; when there are at least as many LEDs as actions every action gets at least one LED, and the first action gets all the extra ones. Disabled and non-LED actions get none.", "quantifier": "all numbers of LEDs and actions, all enablement patterns", "why_tests_cant": "all sizes", "anchors": ["content/lib/pyswitch/controller/actions/__init__.py: Action.__get_led_segments"]}
{"id": "C30", "title": "Setting an action's colour or brightness touches only its own LEDs", "statement": "Setting an action's colour or brightness changes only the stored values of its own segments; the LED hardware of a switch shows colour*brightness for its own pixels only, every component between 0 and 255 when colour components are and brightness is in [0,1]; LEDs of other switches with other pixels never change. A list of the wrong length raises and changes nothing.", "quantifier": "all colours, brightness values, pixel layouts", "why_tests_cant": "all inputs", "anchors": ["content/lib/pyswitch/controller/actions/__init__.py: Action.switch_color, switch_brightness", "content/lib/pyswitch/controller/inputs.py: SwitchController.colors, brightnesses"]}
{"id": "C31", "title": "The displayed state follows the device", "statement": "After a display update with a known parameter value v, an on/off action is on iff v compares to the reference value as configured (equal, greater, greater-or-equal, less, less-or-equal); with no value it is off; the state is re-evaluated only when the value differs from the last one evaluated; no message is sent by that.", "quantifier": "all values, all comparison modes and references, all update histories", "why_tests_cant": "all histories", "anchors": ["content/lib/pyswitch/controller/callbacks/__init__.py: BinaryParameterCallback.update_displays, evaluate_value"]}
{"id": "C32", "title": "Automatic off value restores what was there before", "statement": "With an automatic off value, switching off sends exactly the value the device last reported while the action was off; before any such value is known nothing is sent when switching off.", "quantifier": "all histories of reports and user toggles", "why_tests_cant": "all histories", "anchors": ["content/lib/pyswitch/controller/callbacks/__init__.py: BinaryParameterCallback.state_changed_by_user, evaluate_value"]}
{"id": "C33", "title": "Encoder moves the parameter by the turned amount within limits", "statement": "For a directly sending encoder, each poll sends at most one set; every value sent lies between minimum and maximum and equals the clamped sum of the current value and the scaled turn since the last poll; a poll without movement sends nothing; the first poll sends nothing.", "quantifier": "all position sequences (any sign), limits, step widths, external value changes", "why_tests_cant": "all sequences", "anchors": ["content/lib/pyswitch/controller/actions/EncoderAction.py: EncoderAction.process, accept"]}
{"id": "C34", "title": "Encoder preselection sends nothing until accepted", "statement": "With an accept button, turning never sends; accept sends the preselected value exactly once and only if something has been turned since the last accept/cancel; after cancel nothing is sent and the preselection restarts from the device value.", "quantifier": "all histories of turns, accepts, cancels and external changes", "why_tests_cant": "all histories", "anchors": ["content/lib/pyswitch/controller/actions/EncoderAction.py: EncoderAction.process, accept, cancel", "content/lib/pyswitch/clients/local/actions/encoder_button.py"]}
{"id": "C35", "title": "No encoder step is lost", "statement": "Every encoder step away from the limits changes the value that is sent or preselected by exactly the step.", "quantifier": "all position histories", "why_tests_cant": "the failing histories involve a special position value or concurrent device changes", "anchors": ["content/lib/pyswitch/controller/actions/EncoderAction.py: EncoderAction.process"]}
{"id": "C36", "title": "Pedal scaling", "statement": "For any pedal reading from 0 to 65535 the value sent is an integer from 0 to the maximum, zero for readings below the minimum threshold, the maximum for full travel whenever the number of steps divides 65536, and never decreases when the pedal is moved up.", "quantifier": "all readings, all maxima below 65536, all step counts from 1 to 65536", "why_tests_cant": "65536 readings times all configurations", "anchors": ["content/lib/pyswitch/controller/actions/AnalogAction.py: AnalogAction.process"]}
{"id": "C37", "title": "Pedal traffic is limited", "statement": "A pedal sends only when the value differs from the last one it sent and more than one frame period has passed since the last time it was evaluated; with auto calibration nothing is sent before the covered range reaches the minimum window.", "quantifier": "all reading sequences and clocks", "why_tests_cant": "all sequences", "anchors": ["content/lib/pyswitch/controller/actions/AnalogAction.py: AnalogAction.process"]}
{"id": "C38", "title": "Pedal auto calibration", "statement": "With auto calibration the lowest reading seen maps to the bottom and the highest seen to the top of the range, readings in between are mapped monotonically, and the calibration window only grows and always contains every evaluated reading.", "quantifier": "all reading sequences", "why_tests_cant": "all sequences", "anchors": ["content/lib/pyswitch/controller/actions/AnalogAction.py: AnalogAction.process"]}
{"id": "C39", "title": "Parameter up/down stays in range", "statement": "Pushing a parameter up/down switch sends the current value plus the offset, clamped to [0,max]; nothing is sent when the value is unknown; holding repeats more than the repeat interval apart and stops on release.", "quantifier": "all values, offsets, maxima, hold schedules", "why_tests_cant": "all schedules", "anchors": ["content/lib/pyswitch/clients/local/actions/param_change.py: _ParameterChangeCallback"]}
{"id": "C40", "title": "Rotating messages", "statement": "The k-th press sends message k modulo the number of messages, the k-th release the release message k modulo theirs, independently of LED colours, texts and list lengths; nothing else is sent.", "quantifier": "all list lengths, all numbers of presses", "why_tests_cant": "unbounded press counts and length combinations", "anchors": ["content/lib/pyswitch/clients/local/actions/rotate.py: _CustomMessagesCallback", "content/lib/pyswitch/clients/boomerang/actions/boomerang.py"]}
{"id": "C41", "title": "Paging", "statement": "After any number of pushes on a pager and its proxies the current page is one of the defined pages, rotation visits the pages cyclically, a direct selection yields exactly the requested page, and an action attached to the pager is enabled iff its id is the current page's id.", "quantifier": "all page lists, all push histories", "why_tests_cant": "all histories", "anchors": ["content/lib/pyswitch/clients/local/actions/pager.py", "content/lib/pyswitch/clients/local/actions/pager_direct.py"]}
{"id": "C42", "title": "Rig up/down", "statement": "From any rig, with no bank preselected, rig up/down selects the neighbouring rig: within the bank when the bank is kept (nothing is sent at the ends), across banks otherwise, wrapping between the first and the last of the 625 rigs; up followed by down returns to the start; a bank message is sent exactly when the bank changes, before the rig message; every press that sent a rig message is followed by exactly one matching release message.", "quantifier": "all 625 rigs, both directions and modes, all press/release histories", "why_tests_cant": "all histories", "anchors": ["content/lib/pyswitch/clients/kemper/actions/rig_up_down.py: _KemperRigChangeCallback"]}
{"id": "C43", "title": "Bank up/down", "statement": "Bank up/down with preselection (and at least one available bank) always requests a bank within the available banks, wraps around, up and down are inverse, and repeated presses move on from the preselected bank; without preselection exactly one message is sent per press.", "quantifier": "all banks, maxima and press histories", "why_tests_cant": "all histories", "anchors": ["content/lib/pyswitch/clients/kemper/actions/bank_up_down.py: KemperBankChangeCallback"]}
{"id": "C44", "title": "Rig selection", "statement": "Pressing a rig selection switch addresses exactly the configured rig (or the off rig when already there), sends the bank first iff a bank is configured and no bank is preselected, and each select message is followed by exactly one release message for the same rig; an active bank preselection is ended by it.", "quantifier": "all configurations, rigs and press histories", "why_tests_cant": "all histories", "anchors": ["content/lib/pyswitch/clients/kemper/actions/rig_select.py: _KemperRigSelectCallback"]}
{"id": "C45", "title": "Bank selection", "statement": "Pressing a bank selection switch requests the configured bank (or the off bank when already there) and re-selects the current rig unless in preselect mode; select and release messages pair up; in preselect mode no rig is selected.", "quantifier": "all configurations and press histories", "why_tests_cant": "all histories", "anchors": ["content/lib/pyswitch/clients/kemper/actions/bank_select.py: KemperBankSelectCallback"]}
{"id": "C46", "title": "Effect categories", "statement": "Every effect type number has exactly one category, which has a colour and a name; every effect type that has its own name in the extended list and is not empty has a category other than None.", "quantifier": "all effect type numbers", "why_tests_cant": "all integers", "anchors": ["content/lib/pyswitch/clients/kemper/actions/effect_state.py: get_effect_category", "content/lib/pyswitch/clients/kemper/actions/effect_state_extended_names.py"]}
{"id": "C47", "title": "Value previews disappear", "statement": "A preview text is shown from the preview call until it is reset, or until the first update more than its timeout after the last preview when it is not pinned; a pinned preview stays; when another user enters the preview the previous ones are cancelled; after a reset the original colour is shown.", "quantifier": "all histories of previews, resets and updates", "why_tests_cant": "all schedules", "anchors": ["content/lib/pyswitch/controller/preview.py: ValuePreview"]}
{"id": "C48", "title": "Strobe tuner LEDs", "statement": "All strobe brightness values lie between 0 and the dim factor, the position always stays within one period, and the direction of rotation follows the sign of the deviance (reversed if configured); nothing changes while the tuner is off or with fewer than two switches.", "quantifier": "all deviance histories and clocks", "why_tests_cant": "all histories", "anchors": ["content/lib/pyswitch/controller/strobe.py: StrobeController"]}
{"id": "C49", "title": "MIDI messages survive encoding and decoding", "statement": "Any list of control change, program change and system exclusive messages with valid fields and any channel, sent and then read from a stream whose reads end on message boundaries, is received as exactly that list in order, with the channel it was sent on.", "quantifier": "all message lists, all field values, all lengths", "why_tests_cant": "all lists", "anchors": ["web/htdocs/python/adafruit_midi/midi_message.py", "web/htdocs/python/adafruit_midi/__init__.py: MIDI.receive, send", "web/htdocs/python/adafruit_midi/control_change.py", "web/htdocs/python/adafruit_midi/program_change.py", "web/htdocs/python/adafruit_midi/system_exclusive.py"]}
{"id": "C50", "title": "The decoder always makes progress and never invents messages", "statement": "Decoding never reads beyond the buffer; for any byte stream, every decode call either returns no message and keeps only an incomplete tail, or removes at least one byte; all messages have 7-bit fields.", "quantifier": "all byte streams and chunkings", "why_tests_cant": "all streams", "anchors": ["web/htdocs/python/adafruit_midi/midi_message.py: MIDIMessage.from_message_bytes", "web/htdocs/python/adafruit_midi/__init__.py: MIDI.receive"]}
{"id": "C51", "title": "Fragmented messages are reassembled", "statement": "However the byte stream is split across reads, the same messages are received.", "quantifier": "all chunkings of all message lists", "why_tests_cant": "all chunkings", "anchors": ["web/htdocs/python/adafruit_midi/__init__.py: MIDI.receive", "web/htdocs/python/adafruit_midi/midi_message.py"]}
{"id": "C52", "title": "Display areas never overlap", "statement": "Cutting a part off a display area yields two areas that are disjoint and together cover exactly the original area, for every side and size; the horizontally split children of a container are disjoint, of equal width, inside the container and in order.", "quantifier": "all bounds, sizes, numbers of children", "why_tests_cant": "all sizes", "anchors": ["content/lib/pyswitch/ui/layout.py: DisplayBounds", "content/lib/pyswitch/ui/DisplaySplitContainer.py"]}
{"id": "C53", "title": "Tuner display", "statement": "The deviance marker always stays within the bar for every reported deviance and zoom, moves monotonically with the deviance, and the in-tune colour is shown exactly within the calibration limits; the note name shown is the reported note modulo twelve.", "quantifier": "all deviance and note values", "why_tests_cant": "all values", "anchors": ["content/lib/pyswitch/ui/elements.py: _TunerDevianceDisplay, TunerDisplay"]}
{"id": "C54", "title": "Runtime statistics", "statement": "In each statistics interval the reported maximum is the largest measured duration, the average is the rounded-down mean of all durations, and the number of calls is the number of finished measurements since the last report.", "quantifier": "all measurement histories", "why_tests_cant": "all histories", "anchors": ["content/lib/pyswitch/controller/measure.py: RuntimeMeasurement"]}
{"id": "C55", "title": "Exploration mode cycles through switches", "statement": "Scrolling in exploration mode always highlights exactly one switch, visits all switches cyclically in both directions, and up and down are inverse; LEDs of different switches are disjoint.", "quantifier": "all numbers of switches and scroll histories", "why_tests_cant": "all histories", "anchors": ["content/lib/pyswitch/controller/explore.py: ExploreModeController"]}
{"id": "C56", "title": "Pressing an effect switch controls the device end to end", "statement": "For any configuration of switches and push button actions: an action with its own parameter on one switch without hold actions sends, over any history of polls, device messages, redraws and updates, exactly one set message for each press or release that asks for something (latch: the opposite of what the switch shows at each press; momentary, enable, disable, one shot and hold variants accordingly), carrying the on or off value. Afterwards the switch shows what was asked for; messages from the device make it show what the device reports. No history raises.", "quantifier": "all configurations and all histories of polls, redraws, updates and device messages", "why_tests_cant": "the composition of switch, action, callback, client and routing has unboundedly many histories", "anchors": ["content/lib/pyswitch/controller/inputs.py", "content/lib/pyswitch/controller/actions/__init__.py", "content/lib/pyswitch/controller/callbacks/__init__.py", "content/lib/pyswitch/controller/client.py", "content/lib/pyswitch/controller/midi.py"]}
{"id": "C57", "title": "Morph state display", "statement": "The displayed morph colour always lies between the base and the morphed colour for every morph value from 0 to 16383, is the base colour at 0 and the morphed colour at 16383; toggling twice restores the state.", "quantifier": "all values and colours", "why_tests_cant": "all values", "anchors": ["content/lib/pyswitch/clients/kemper/actions/morph.py: _get_color, KemperMorphCallback"]}
{"id": "C58", "title": "The client never raises", "statement": "Provided every mapping has well-formed response templates, no message is addressed both to a parameter and to the one it depends on, set values fit their messages, and protocol-handled parameters are registered before they are set, no sequence of register, request, set, receive and connection-lost calls, with whatever messages arriving at whatever times, makes the client raise an exception.", "quantifier": "all mapping configurations meeting the stated conditions, all histories of calls and incoming messages", "why_tests_cant": "an exception in the main loop stops the controller; histories and messages are unbounded", "anchors": ["content/lib/pyswitch/controller/client.py: Client.register, request, set, receive, ClientRequest.parse, BidirectionalClient.set, notify_connection_lost"]}
{"id": "C59", "title": "The LED strip fits the assignment", "statement": "The LED driver is initialised with exactly one more than the highest pixel index assigned to any input (0 if none is assigned), so every assigned pixel exists.", "quantifier": "all input configurations", "why_tests_cant": "all configurations", "anchors": ["content/lib/pyswitch/controller/controller.py: Controller.__init__ get_num_pixels"]}
{"id": "C60", "title": "Automatic off rig", "statement": "A rig selection switch with automatic off rig, pressed while its rig is already selected, returns to the rig that was displayed before it.", "quantifier": "all configurations, all histories of rigs displayed before", "why_tests_cant": "all histories of displayed rigs", "anchors": ["content/lib/pyswitch/clients/kemper/actions/rig_select.py: _KemperRigSelectCallback.update_displays"]}
{"id": "C61", "title": "Shown preselection is what the device waits for", "statement": "Whenever a bank is shown as preselected, that bank is the one the device waits to use with the next rig selection, so a following rig selection switch ends at the configured rig of the bank shown.", "quantifier": "all sets of bank/rig switches, all press histories, all device states", "why_tests_cant": "interleavings of several switches sharing the preselection", "anchors": ["content/lib/pyswitch/clients/kemper/actions/bank_select.py: KemperBankSelectCallback", "content/lib/pyswitch/clients/kemper/actions/bank_up_down.py: KemperBankChangeCallback", "content/lib/pyswitch/clients/kemper/actions/rig_select.py: _KemperRigSelectCallback"]}
{"id": "C62", "title": "The client sends nothing but its configured messages", "statement": "Whatever happened before, setting a parameter sends exactly once all set messages configured for that parameter, in order, each with the given value in its value position and everything else as configured; requesting sends exactly the configured request messages; nothing else is ever sent by the client.", "quantifier": "all parameter configurations, all histories of client calls and received messages", "why_tests_cant": "set messages are changed in place by every set, so the message depends on the whole history; tests use fresh mappings", "anchors": ["content/lib/pyswitch/controller/client.py: ClientParameterMapping.set_value, __set_value, Client.set, Client.request, Client.register"]}
{"id": "C63", "title": "Device parameters are never confused", "statement": "For the parameters of the Kemper client: a received message that reports one parameter reports exactly the parameters standing for the same quantity of the device (delay and reverb with and without spillover, the two morph controls, everything about the current rig), the set message of one parameter addresses another only if both change the same quantity, the device's answer to a parameter's request gives that parameter the answered value, asking for mappings in any order never mixes up two parameters, and a client using them raises no exception.", "quantifier": "all pairs of parameters, all messages, all orders of asking for mappings, all orderly client histories", "why_tests_cant": "quantifies over all received messages and all pairs of parameters; tests check single mappings", "anchors": ["content/lib/pyswitch/clients/kemper/__init__.py: KemperMappings, KemperNRPNMessage, KemperNRPNExtendedMessage, KemperEffectSlot", "content/lib/pyswitch/clients/kemper/mappings/: MAPPING_*"]}
{"id": "C64", "title": "Tuner mode", "statement": "While the device is in tuner mode (last reported value 1) the foot switches do not trigger their actions; pressing and releasing any switch leaves tuner mode with exactly one command, given at the release, while the release of the switch that enabled the tuner does not. The display shows the tuner exactly while in tuner mode; all switches get dark when it begins, and all actions are reset when it ends. Outside tuner mode the switches work as usual. If processing of overridden actions is configured, the actions are pushed and released as well.", "quantifier": "all numbers and configurations of switches, all histories of switch polls and reported tuner states (also changes made at the device while switches are down), all enablements", "why_tests_cant": "the outcome depends on the interleaving of switch edges with device reports", "anchors": ["content/lib/pyswitch/clients/kemper/__init__.py: TunerDisplayCallback", "content/lib/pyswitch/controller/inputs.py: SwitchController.process, override_action", "content/lib/pyswitch/ui/UiController.py: UiController.show"]}
{"id": "C65", "title": "Client and bidirectional protocol together", "statement": "Working together, the client and the bidirectional protocol keep their separate promises: the protocol sees every sign of life of the device although it only gets the messages the client has no use for, and the client is told about a lost connection exactly when the protocol gives it up. When the device falls silent for over 1.5 seconds, the loss is reported by the first update more than 5 seconds after the last opening beacon; then every listener of every parameter handled by the protocol is told once, before the new beacon, displayed values are forgotten and all registrations stay. No history of calls, messages and losses raises an exception.", "quantifier": "all parameter sets, all interleavings of registrations, requests, set calls, arbitrary MIDI messages and updates at arbitrary times", "why_tests_cant": "the promise spans two state machines driven by the same stream; the relevant failures need particular interleavings of timeouts, messages and losses", "anchors": ["content/lib/pyswitch/controller/client.py: BidirectionalClient.receive, update, notify_connection_lost", "content/lib/pyswitch/clients/kemper/__init__.py: KemperBidirectionalProtocol.update, receive"]}
{"id": "C66", "title": "Display labels show what was last asked for and stay readable", "statement": "After any sequence of text, colour, background, override, refresh and warning operations, what is on the screen for a label is exactly: the text last written (the override text while there is one, otherwise what its callback wants; 'Low Memory!' once the application has raised the warning; the configured text if nothing was written), wrapped to the width of the label, on the background last assigned. If no text colour is configured or assigned, the text is white or black and differs from the background by at least 45 percent of the brightness range, whatever the background colour is changed to; a configured colour is kept; an assigned one holds until the next assignment or change of background. The only operation that raises is adding or removing a background. Nothing is redrawn unless something changes.", "quantifier": "all configurations, all histories of operations before and after the label is initialised, all colours", "why_tests_cant": "colour and text depend on the whole history (initial colour, override, warning); contrast must hold for all 16 million colours", "anchors": ["content/lib/pyswitch/ui/elements.py: DisplayLabel", "content/lib/pyswitch/ui/ui.py: DisplayElement.init"]}
{"id": "C67", "title": "The rig label shows the current rig or the preselected bank", "statement": "A label with the rig name callback shows, at all times after the first answer of the device, the preselected bank if there is one ('Bank n'), otherwise the rig as configured: bank and/or rig number counted from 1, and/or the name (the default text while the name is unknown). Different rigs have different bank-rig numbers. A label bound to another parameter shows its converted value, its value, or its default text.", "quantifier": "all configurations of the callback, all rig ids and names, all interleavings of answers, lost requests, preselections and updates", "why_tests_cant": "the shown text depends on the order of preselections, updates and answers; uniqueness is about all rig ids", "anchors": ["content/lib/pyswitch/clients/kemper/__init__.py: KemperRigNameCallback", "content/lib/pyswitch/controller/callbacks/parameter_display.py: ParameterDisplayCallback", "content/lib/pyswitch/ui/elements.py: DisplayLabel.update_label"]}
{"id": "C68", "title": "The configuration editor keeps the configuration", "statement": "Opening a configuration file in the editor (inputs.py or display.py) and saving it unchanged leaves the program unchanged. Whatever is saved, all other statements stay as they are and in order; afterwards the root and all variables of the edited data have exactly the values shown in the editor, all other variables keep theirs, and new variables are defined before they are used.", "quantifier": "all configuration files (any statements, nesting of calls, dictionaries and lists, variables referring to each other) and all edited data", "why_tests_cant": "the parser follows variables through arbitrarily nested expressions and writes them back one by one; tests can only try some files", "anchors": ["web/htdocs/python/parser/PySwitchParser.py: PySwitchParser", "web/htdocs/python/parser/InputsExtractor.py: InputsExtractor", "web/htdocs/python/parser/SplashesExtractor.py: SplashesExtractor", "web/htdocs/python/parser/misc/CodeGenerator.py: CodeGenerator", "web/htdocs/python/parser/misc/AssignmentExtractor.py: AssignmentExtractor", "web/htdocs/python/parser/misc/ReplaceAssignmentTransformer.py: ReplaceAssignmentTransformer"]}
{"id": "C69", "title": "A saved configuration imports what it uses", "statement": "When a configuration file is saved by the editor nothing but its imports changes; every name the file uses and that it imported before, or that the editor knows an import for, is imported on module level, from the same place as before; every remaining import is used, and no name is imported twice.", "quantifier": "all files (nested functions and classes), all sets of available imports, all orders in which the scopes and assignments are visited", "why_tests_cant": "the order in which unused and duplicate imports are found is that of a set, and scopes nest arbitrarily", "anchors": ["web/htdocs/python/parser/PySwitchParser.py: PySwitchParser.to_source", "web/htdocs/python/parser/misc/AddImportsTransformer.py: AddImportsTransformer", "web/htdocs/python/parser/misc/RemoveUnusedImportTransformer.py: RemoveUnusedImportTransformer"]}
{"id": "C70", "title": "The displayed morph state follows the rig buttons", "statement": "If the device morphs when the current rig is selected again (toggling, or while the button is held) and the rig select actions are set up the same way, the morph state the displays use is that of the device after every press and release: reset by selecting another rig, toggled or held by selecting the current one.", "quantifier": "all sets of rig select and rig up/down switches, all rigs and banks, all sequences of presses, releases, redraws and reports, one switch held at a time", "why_tests_cant": "the state depends on the whole history of presses; tests try single presses", "anchors": ["content/lib/pyswitch/clients/kemper/actions/rig_select.py: _KemperRigSelectCallback.push", "content/lib/pyswitch/clients/kemper/actions/rig_select.py: KemperRigSelectCallback.release", "content/lib/pyswitch/clients/kemper/actions/rig_up_down.py: _KemperRigChangeCallback.push"]}
{"id": "C71", "title": "Screens are drawn once and only the visible one is updated", "statement": "Whatever screens a configuration switches between, every display element is drawn exactly once, on the first screen that contains it; a new screen is drawn completely, in the listed order, before it becomes visible; the display changes exactly when another screen is asked for; and every update reaches exactly the updateable elements of the visible screen, at any nesting depth.", "quantifier": "all trees of display elements, all sequences of screen requests and updates", "why_tests_cant": "the screens are arbitrary trees and what is drawn depends on all screens shown before; tests use one or two fixed screens", "anchors": ["content/lib/pyswitch/ui/ui.py: DisplayElement", "content/lib/pyswitch/ui/UiController.py: UiController", "content/lib/pyswitch/misc.py: Updater"]}
{"id": "C72", "title": "The tempo display follows the device", "statement": "With SHOW_TEMPO the LED is lit exactly while the device's tempo pulse is on and the label shows the device's tempo, rounded to the nearest whole BPM, each time it is drawn outside tuner mode, where nothing is drawn; and a change of the tempo is announced on the preview label exactly if the previous tempo seen was in the same rig, so not for the first tempo nor for that of a new rig.", "quantifier": "all configurations of the action, all sequences of reports of pulse, tempo, rig and tuner mode, lost parameters and redraws, all tempo values", "why_tests_cant": "what is drawn depends on the whole history of reports; tests try a few", "anchors": ["content/lib/pyswitch/clients/kemper/actions/tempo.py: _KemperShowTempoCallback.update_displays", "content/lib/pyswitch/clients/kemper/mappings/tempo_bpm.py: convert_bpm"]}
{"id": "C73", "title": "Effect buttons toggle and start with off in every rig", "statement": "From the moment an effect button becomes visible it is off; while it is visible, it is on exactly after an odd number of presses since the last rig change or reset, each press sends on or off accordingly, nothing else sends anything, and the LEDs and the label show the state.", "quantifier": "all histories before the button becomes visible, all sequences of presses, rig reports, resets and updates, with and without internal state display", "why_tests_cant": "the state depends on all presses and rig changes; tests try single sequences", "anchors": ["content/lib/pyswitch/clients/kemper/actions/effect_button.py: _KemperEffectButtonCallback.parameter_changed", "content/lib/pyswitch/controller/actions/__init__.py: PushButtonAction", "content/lib/pyswitch/controller/callbacks/__init__.py: BinaryParameterCallback.update_displays"]}
{"id": "C74", "title": "Labels announce the rig or bank a press selects", "statement": "In the target display mode, after a redraw in any history, the rig on a rig select switch's label is the rig the device goes to when the switch is pressed, and label and LED have the colour of that rig's bank; the LED is bright exactly at the switch's own rig and blinks while a bank is preselected. The same holds for rig up/down, for the bank of bank up/down with preselection and of bank select, whose skipped redraws never leave an outdated display.", "quantifier": "all configurations with valid numbers, all histories of presses, releases, rig reports and redraws of all switches, all rigs, all blink states, all text and colour callbacks", "why_tests_cant": "the announced rig depends on off numbers tracked over the history, on the shared preselection and on the current rig; tests try a few combinations", "anchors": ["content/lib/pyswitch/clients/kemper/actions/rig_select.py: _KemperRigSelectCallback.update_displays", "content/lib/pyswitch/clients/kemper/actions/bank_select.py: KemperBankSelectCallback.update_displays", "content/lib/pyswitch/clients/kemper/actions/bank_up_down.py: KemperBankChangeCallback.update_displays", "content/lib/pyswitch/clients/kemper/actions/rig_up_down.py: _KemperRigChangeCallback.update_displays"]}
{"id": "C75", "title": "The bank encoder and the switches agree on the preselected bank", "statement": "Turning the bank encoder preselects the bank it counts from, moved by the turn and kept within the 125 banks; it sends nothing but that, once. In any mix with rig and bank switches, the bank shown as preselected is the one the device waits for, and the next rig switch loads its rig there and ends the preselection. The encoder counts from the bank shown, and bank switches keep the rig number.", "quantifier": "all step widths, all sets of rig and bank switches, all histories of turns, presses, releases, redraws and rig reports", "why_tests_cant": "encoder and switches share two values kept by different parties; what a turn does depends on the order of everything that happened since the last report of the device", "anchors": ["content/lib/pyswitch/clients/kemper/actions/bank_select_encoder.py: _BankSelectEncoderAction", "content/lib/pyswitch/clients/kemper/mappings/select.py: MAPPING_BANK_SELECT", "content/lib/pyswitch/clients/kemper/actions/bank_select.py: KemperBankSelectCallback.push", "content/lib/pyswitch/clients/kemper/actions/bank_up_down.py: KemperBankChangeCallback.push", "content/lib/pyswitch/clients/kemper/actions/rig_select.py: _KemperRigSelectCallback.push"]}
{"id": "C76", "title": "The emulator's MIDI input delivers every message, once and in order", "statement": "In the web emulator, every MIDI message arriving at the input reaches PySwitch complete, exactly once and in the order of arrival, as far as its channel is listened to; and PySwitch gets exactly what the MIDI monitor shows.", "quantifier": "all sequences of messages of any length, arriving at any time between ticks, all buffer sizes, message limits per tick and channel settings", "why_tests_cant": "what a read returns depends on how much of earlier messages is still in the buffer, so loss needs a burst of a certain size at a certain time", "anchors": ["web/htdocs/python/wrappers/wrap_adafruit_midi.py: WrapMidiInput.read", "web/htdocs/python/adafruit_midi/__init__.py: MIDI.receive", "web/htdocs/js/midi/PythonMidiWrapper.js: messageQueue", "content/lib/pyswitch/controller/controller.py: Controller.__receive_midi_messages"]}
{"id": "C77", "title": "The emulator runs one engine at a time, and stop() stops it", "statement": "Starting the emulator stops the engine running before; at any time at most one engine is ticking. From the call of stop() on, and after an exception in a tick, nothing ticks until the next start. After a successful start the engine keeps ticking. Every call of run() and stop() returns.", "quantifier": "all interleavings of calls of run() and stop(), their steps between awaits, and timers; all outcomes (success or exception) of start-up and ticks", "why_tests_cant": "timers, the waiting loop of stop() and the awaits of run() can interleave in unboundedly many ways; the failures need a particular order", "anchors": ["web/htdocs/js/PySwitchRunner.js: PySwitchRunner.stop, PySwitchRunner.run", "web/htdocs/python/PySwitchRunner.py: PySwitchRunner.run, init, tick, stop"]}
{"id": "C78", "title": "The firmware and the emulator's virtual Kemper find each other and stay connected", "statement": "Whatever happened before - stalled updates, arbitrarily delayed messages, a lost connection -, as soon as both sides are updated and messages are delivered within a known time, both sides are connected (with the parameter set the firmware asks for) after a bounded time and the connection is not lost any more. After a fresh start this takes about 5.5 s and there is no loss at all. The virtual device is connected only within the lease of a beacon it has received, answers at least every half second when connected, and sends only valid keep-alive messages.", "quantifier": "all histories (interleavings of updates, deliveries and other messages on both wires, at any times), all leases from 6 to 255 s, all update intervals and delivery times that are fast enough, all schedules keeping that pace", "why_tests_cant": "two timed state machines with two message queues in between: recovery depends on where in their periods both sides and the messages on the way are; a test runs a few schedules", "anchors": ["content/lib/pyswitch/clients/kemper/__init__.py: KemperBidirectionalProtocol", "web/htdocs/clients/kemper/virtual/VirtualKemperProtocol.js: VirtualKemperProtocol.update, parse, #sendKeepAlive", "web/htdocs/js/misc/PeriodCounter.js: PeriodCounter", "web/htdocs/clients/kemper/virtual/VirtualKemperClient.js: queueMessage, doSend"]}
{"id": "C79", "title": "The emulator's virtual Kemper is a faithful memory for the firmware", "statement": "Whatever messages the virtual device has received and whatever its user interface or its clocks have changed: a request of the firmware for a numeric parameter (effect types and states, amp, cabinet, rig and system values, mixes, rotary speed, freeze, ...) gets exactly one answer, which the firmware reads as the value written to this parameter last, by SysEx, by control change or on screen; writing one parameter changes no other. A value set by the firmware is the value it reads afterwards. From the first beacon with initialisation on, as long as the parameter set stays active, the firmware knows the current value of every pushed parameter (effect slots, tuner, tempo pulse) at any time without asking.", "quantifier": "all histories of messages (SysEx of any content, control and program changes), changes by the user interface, sends, beacons and timeouts; all numeric parameters of the firmware; all values of 14 bits", "why_tests_cant": "any parameter can be written over several paths (SysEx, control changes, user interface) and new parameters are created on demand in any order; the claim needs the absence of interference between all of them for every history", "anchors": ["web/htdocs/clients/kemper/virtual/VirtualKemperParameter.js: VirtualKemperParameter", "web/htdocs/clients/kemper/virtual/VirtualKemperParameters.js: VirtualKemperParameters", "web/htdocs/clients/kemper/virtual/VirtualKemperParameterKeys.js: NRPNKey, CCKey, PCKey", "web/htdocs/clients/kemper/virtual/VirtualKemperParameterDefault.js: VirtualKemperParameterDefault", "web/htdocs/clients/kemper/virtual/VirtualKemperClientSetup.js: VirtualKemperClientSetup", "content/lib/pyswitch/controller/client.py: ClientParameterMapping", "content/lib/pyswitch/clients/kemper/mappings: all"]}
{"id": "C80", "title": "The emulator's virtual Kemper changes rigs like the documented device, and the firmware follows", "statement": "Whatever the firmware sends and whatever happens on screen: as long as rig switches are pressed and released one after the other, the rig which the connected firmware believes to be active is the rig which the documented device (bank select CC 47, rig switches CC 50-54, bank steps CC 48/49) would have after the same messages, and the rig name the virtual device answers is the name of that rig. In the closed loop of the firmware's rig and bank switches, used one at a time, with the virtual device, this holds after every step, so a press of a rig up/down or rig select switch brings firmware and virtual device to the rig intended.", "quantifier": "all histories of messages, changes by the user interface, beacons and sends, before and after connecting, subject to the order of rig switch presses and releases; all configurations of the rig and bank switches in the loop, all start rigs", "why_tests_cant": "the rig id is split over two parameters (CC 32 and PC), written by five rig switch parameters, two bank steps, the screen and the bank preselection; agreement with the documented device has to survive any interleaving and any unrelated traffic", "anchors": ["web/htdocs/clients/kemper/virtual/VirtualKemperClientSetup.js: VirtualKemperClientSetup", "web/htdocs/clients/kemper/virtual/VirtualKemperParameters.js: VirtualKemperParameters", "web/htdocs/clients/kemper/virtual/VirtualKemperClient.js: VirtualKemperClient", "content/lib/pyswitch/clients/kemper/actions/rig_up_down.py: KemperRigChangeCallback", "content/lib/pyswitch/clients/kemper/actions/rig_select.py: KemperRigSelectCallback", "content/lib/pyswitch/clients/kemper/mappings/rig.py: MAPPING_RIG_ID"]}
{"id": "C81", "title": "What the MIDI bridge sends are MIDI data bytes, and they decode to what was encoded", "statement": "Every byte sequence is packed into MIDI data bytes (0..127) of minimal length and unpacked to the same bytes; every number below 2^24 is sent in four data bytes and read back as the same number; every text is read back as the same text if it is well-formed UTF-16 and does not begin with a byte order mark. Whatever two bridges do and whatever data bytes arrive, every system exclusive message a bridge sends consists of data bytes only.", "quantifier": "all byte sequences, numbers below 2^24, texts of any length; all histories of operations and arriving messages", "why_tests_cant": "the bit regrouping, the UTF-8 codec and the number format interact for all lengths and values; a single byte above 127 inside a system exclusive message corrupts the MIDI stream, in any of infinitely many histories", "anchors": ["web/htdocs/lib/jsmidibridge/JsMidiBridge.js: packBytes, unpackBytes, #convertBitlength", "web/htdocs/lib/jsmidibridge/JsMidiBridge.js: number2bytes, bytes2number", "web/htdocs/lib/jsmidibridge/JsMidiBridge.js: string2bytes, bytes2string", "web/htdocs/lib/jsmidibridge/JsMidiBridge.js: sendSysex"]}
{"id": "C82", "title": "Damaged bridge messages are rejected", "statement": "A message which was sent by a bridge and in which one byte of the payload, two neighbouring bytes of the payload, or only the checksum were changed to other values is rejected by every receiving bridge in every state with a checksum error: nothing of it is used, and the bridge keeps its state (or only sends the error text, when exceptions are off). A message which arrives as it was sent is never rejected for its checksum.", "quantifier": "all messages sent in any history, all such changes at any position, all states of the receiving bridge", "why_tests_cant": "detection is a property of the checksum polynomial for messages of every length and all error positions", "anchors": ["web/htdocs/lib/jsmidibridge/JsMidiBridge.js: getChecksum", "web/htdocs/lib/jsmidibridge/JsMidiBridge.js: #crc16, receive", "web/htdocs/lib/jsmidibridge/JsMidiBridge.js: error"]}
{"id": "C83", "title": "Files transferred by the MIDI bridge arrive complete and unchanged, or not at all", "statement": "Two bridges are connected by cables which may lose, delay, double and reorder messages and add noise (messages for others, or damaged ones which the checksum shows). Whatever both sides send, offer and request, and in whatever order: each file reported as received was offered by the other side, under the path reported and with exactly the content reported. When a side is told that a transmission has been acknowledged, the other side has reported its complete content (or the error text) before.", "quantifier": "all histories of sends, file offers, requests, deliveries of any message sent before (in any order, any number of times) and noise; all file contents shorter than 2^24; fewer than 2^24 transmissions per side", "why_tests_cant": "chunks, acknowledgements and ids of several concurrent transmissions in both directions interleave in unboundedly many ways, under an adversarial network", "anchors": ["web/htdocs/lib/jsmidibridge/JsMidiBridge.js: sendFile, sendString, request", "web/htdocs/lib/jsmidibridge/JsMidiBridge.js: receive, #receiveStart, #receiveData, #receiveFinish, #receiveAck", "web/htdocs/lib/jsmidibridge/JsMidiBridge.js: #sendNextChunk, #sendChunk, #sendAckMessage", "web/htdocs/lib/jsmidibridge/JsMidiBridge.js: generateTransmissionId", "web/htdocs/lib/jsmidibridge/JsMidiBridge.js: #cleanupTransmissions"]}
{"id": "C84", "title": "Over a reliable connection every transfer of the MIDI bridge is completed, exactly once", "statement": "Two bridges are connected by cables which deliver every message once and in the order of sending, at any time. Whatever both sides send, offer and request concurrently: when all messages have arrived, each text and file sent has been reported exactly once at the other side, with its path and content, and acknowledged exactly once at the sender; each request has been answered with the file, or with an error if there is none; and no side holds any transmission any more. At any time the number of messages sent is at most one per request plus, per transmission, one start and one data message and one acknowledgement per part: there is no endless exchange.", "quantifier": "all histories of sends, file offers, requests and in-order deliveries on both sides with any interleaving; all non-empty file contents shorter than 2^24; at most 2^24 transmissions per side; no side acts while holding a transmission older than 5 s", "why_tests_cant": "many transmissions in both directions are interleaved arbitrarily, with unbounded numbers of parts; completeness and the bound on the number of messages are statements about whole histories", "anchors": ["web/htdocs/lib/jsmidibridge/JsMidiBridge.js: sendFile, sendString, request", "web/htdocs/lib/jsmidibridge/JsMidiBridge.js: receive, #receiveStart, #receiveData, #receiveFinish, #receiveAck", "web/htdocs/lib/jsmidibridge/JsMidiBridge.js: #sendNextChunk, #sendChunk, #sendAckMessage, #cleanupTransmissions"]}
{"id": "C85", "title": "The web editor loads and saves files on the controller correctly if it makes one call after the other", "statement": "After connect, each call of loadFile and saveFile is made when the earlier ones are settled, over a reliable connection. Then every call is settled when all messages have arrived: connect successfully, saveFile successfully, loadFile with the content the controller had for this path at a time between this call and the next one, or with the controller's error message if there was no such file. The controller receives exactly the files saved, in the order of the calls. If the controller stores what it receives, a file which has been saved is loaded exactly as it was saved, until it is saved again. Calls made at the same time are independent of each other.", "quantifier": "all sequences of calls with any number of messages under way, all interleavings of the deliveries on both sides, all paths and non-empty contents (without surrogates for the round trip), all states of the controller's files over time", "why_tests_cant": "one set of callbacks of the bridge is shared by all calls, and each call replaces it; that every event settles the right promise depends on the order of completion of all transmissions in both directions, for unbounded histories", "anchors": ["web/htdocs/js/DeviceController.js: connect, loadFile, saveFile", "web/htdocs/js/midi/MidiBridgeHandler.js: connect", "web/htdocs/lib/jsmidibridge/JsMidiBridge.js: sendString, request, receive"]}
{"id": "C86", "title": "The MIDI bridge forgets transmissions which are not completed, and only those", "statement": "Whenever a bridge starts a transmission or another one starts there, each transmission it still holds has been active in the last 5 seconds: the bridge has sent a part of it, or acknowledged one. A transmission which has been active in the last 5 seconds is held until it is completed. So lost messages cost memory only for a limited time.", "quantifier": "all histories of two bridges with any messages lost, delayed, doubled, overtaken, altered or invented, all times and clock values, all files and texts, all numbers of transmissions at the same time", "why_tests_cant": "the number of lost and overlapping transmissions and the times between them are unbounded; whether an abandoned one is dropped depends on all later starts in the history", "anchors": ["web/htdocs/lib/jsmidibridge/JsMidiBridge.js: #cleanupTransmissions, #cleanupTransmissionsArray, sendString, receive"]}
{"id": "C87", "title": "Presets in the web editor come back as they were saved, and only change when the user asks for it", "statement": "After any history: saving a preset (or saving over one after confirming) makes it hold exactly the code given; saving as a new preset takes the first name entered which is not taken and changes no other preset, and changes nothing if cancelled; a deleted preset is neither listed nor read; renaming moves the content. A preset comes back as it was saved until an operation is about it, whatever is done with other presets and with settings by whatever version of the editor. No preset is listed twice. Presets and settings do not get in each other's way. No preset is lost unless the user confirms it.", "quantifier": "all histories of saving, saving as, overwriting, deleting, renaming and of keeping settings of any versions, all names and contents, all sequences of answers in the dialogs", "why_tests_cant": "the presets are one array inside one item of the browser's storage which is rewritten by every operation, next to the settings of all versions; whether an operation hits another entry depends on all names and the whole history", "anchors": ["web/htdocs/js/model/Presets.js", "web/htdocs/js/misc/LocalState.js", "web/htdocs/js/ui/presets/LocalPresetsProvider.js", "web/htdocs/js/ui/PySwitchUI.js", "web/htdocs/js/model/configurations/PresetConfiguration.js"]}
{"id": "C88", "title": "The settings of the emulator and the downloaded config.py mean the same to the firmware", "statement": "After any history of changing and resetting the emulator's settings: the dialog shows what was entered last (or the default), and a change of one option changes no other one. The config.py which can be downloaded is valid Python, enables the MIDI bridge, and a controller with this file uses for every option the same value as the emulator, and as the dialog shows.", "quantifier": "all histories of number inputs, checkboxes, resets and other uses of the browser's storage, all values, all 16 options", "why_tests_cant": "the file leaves out options which equal the editor's defaults, so the claim depends on the defaults in the editor and those in several places of the firmware being the same, for all values and combinations", "anchors": ["web/htdocs/js/model/ConfigFile.js", "web/htdocs/js/ui/misc/EmulatorSettings.js", "web/htdocs/templates/config-template.py", "content/lib/pyswitch/controller/controller.py: Controller.__init__", "content/lib/pyswitch/misc.py: get_option"]}
{"id": "C89", "title": "The web editor warns about a display label exactly if two usages of it can be active at the same time", "statement": "For an action and a display of the configuration, the editor shows the warning that the DisplayLabel is possibly used more than once at a time exactly if the action uses the display (other than for previews or changes), and another action, or another argument, uses it too such that both are enabled at the same time for some choice of the pages shown by all pagers. There are no warnings about other actions or displays. The check works for every configuration.", "quantifier": "all configurations with any number of inputs, actions, hold actions, arguments, pagers and pages, all displays", "why_tests_cant": "the check works by filtering the usages for every pager and page and merging the messages; that this gives neither too many nor too few warnings is a statement about all combinations of pagers, pages and usages", "anchors": ["web/htdocs/js/model/parser/ParserChecks.js", "web/htdocs/js/model/parser/ParserInputAction.js: pager, page, argument", "web/htdocs/js/model/parser/ParserInput.js: actions"]}
{"id": "C90", "title": "The web editor says there are no unsaved changes only if the code is kept somewhere, and loses none without asking", "statement": "If the open configuration is not marked as changed, some place (preset, folder, controller) had exactly its code when it was loaded from there or written there. A finished save has written the code of both files as it is in the editor. Opening another configuration loses nothing unless the user is asked and agrees; if they do not agree, nothing happens. A tab which is not marked shows the code of the configuration; what is typed into a tab becomes the code when it is applied, and is not lost before. The mark for unsaved changes is right whenever no save is under way.", "quantifier": "all histories of editing in the frontend, typing in and applying both code tabs, uploading, restarting, starting any number of saves to any places with their steps in any order, their ends and failures, and opening configurations in all ways", "why_tests_cant": "saving takes several asynchronous steps in which the user goes on working; which code is written and which changes are marked as saved depends on the interleaving of these steps with changes, for unbounded histories", "anchors": ["web/htdocs/js/model/configurations/Configuration.js: get, set, save, resetDirtyState", "web/htdocs/js/model/configurations/LocalFolderConfiguration.js: doSave", "web/htdocs/js/DeviceController.js: saveConfig", "web/htdocs/js/ui/PySwitchUI.js: confirmIfDirty, applyConfig", "web/htdocs/js/ui/editors/CodeEditor.js: setConfig, apply", "web/htdocs/js/ui/localfolder/LocalFolderSelection.js: call", "web/htdocs/js/routing/Routing.js: call"]}
{"id": "C91", "title": "Changing the actions of inputs in the web editor changes what it should and nothing else", "statement": "When an action is added to an input, removed, replaced, switched between normal and hold, or dragged to another place or another input, the saved inputs.py gives every input exactly the actions, in the order, which the user sees. All other settings of all inputs, the entries of all other inputs, and all variables stay as they are; a variable which has been entered for the action has the new code. The change never fails.", "quantifier": "all inputs.py files, all inputs (also those without an entry yet), all positions, all actions with any arguments, pages and variables, all arrangements by dragging", "why_tests_cant": "all actions of an input are converted to the format of the dialog and back whenever one of them changes, and variables are written wherever they occur, in an order which decides; whether something else is changed depends on the whole file", "anchors": ["web/htdocs/js/ui/parser/ParserFrontendInput.js: addAction, removeAction, replaceAction, updateInput", "web/htdocs/js/ui/parser/ParserFrontend.js", "web/htdocs/js/model/parser/ParserInput.js: actions, setActions", "web/htdocs/js/model/parser/ParserInputAction.js: arguments", "web/htdocs/js/model/parser/ParserTreeElement.js: setArgument", "web/htdocs/js/model/parser/Parser.js: input, inputData", "web/htdocs/python/PySwitchParser.py: to_py"]}
{"id": "C92", "title": "The display editor changes only what the user changes, and never breaks elements which are in use", "statement": "An element of the display which is used by an action can neither be removed nor renamed, by no sequence of edits. Moving an element up or down exchanges it with its neighbour only, dragging brings it to the front and moves it by the distance of the mouse, resizing keeps the position and never gives a size below one, entered values are taken over exactly, and all other elements stay as they are. New elements get a name which is not used. Names only contain characters of identifiers. What is applied has no two elements with the same name, and the editor asks before closing if and only if something has been changed.", "quantifier": "all trees of display elements, all sets of names used by actions, all sequences of mouse and dialog operations with any distances and values", "why_tests_cant": "what an operation does depends on the tree all operations before left behind, on selection and z order, and on which names are used; the trees are of any size and depth", "anchors": ["web/htdocs/js/ui/editors/display/DisplayEditor.js", "web/htdocs/js/ui/editors/display/DisplayNode.js", "web/htdocs/js/ui/editors/display/DisplayNodePreview.js", "web/htdocs/js/ui/editors/display/DisplayNodePreviewDrag.js", "web/htdocs/js/ui/editors/display/DisplayPreview.js", "web/htdocs/js/ui/editors/display/DisplayParameterList.js", "web/htdocs/js/ui/editors/display/DisplayParameters.js", "web/htdocs/js/ui/editors/display/DisplayNodeType.js", "web/htdocs/js/ui/parser/ParserFrontend.js: checks of display elements"]}
{"id": "C93", "title": "The dialog for an action changes only what the user changes", "statement": "Opening the properties of an existing action and applying them without any change gives an action which does the same. A change of one parameter leaves all others as they are, and the parameter gets exactly the entered value; texts become valid string literals. If another action is selected, it takes over the values both actions have in common. What is applied is always a valid call: no argument twice, none missing, none unknown.", "quantifier": "all actions with parameters of all types, defaults and metadata, all calls with any argument code, all sequences of inputs in the dialog, pagers and page selections included", "why_tests_cant": "every argument goes through an input which may not be able to show it, defaults come from three places, and selections of pages depend on the pages known at that moment; any combination of definition, metadata and existing code can occur", "anchors": ["web/htdocs/js/ui/parser/ActionProperties.js", "web/htdocs/js/ui/parser/PagerProperties.js: #updateInputs", "web/htdocs/js/ui/parser/ParserFrontendInput.js: promptEditAction, #promptAction", "web/htdocs/js/model/parser/ParameterMeta.js", "web/htdocs/js/misc/Tools.js: autoQuote, stripQuotes"]}
{"id": "C94", "title": "Navigation is executed one at a time, in order, and nothing is lost", "statement": "When the user opens several configurations quickly one after another, the web application executes the routes one at a time, in the order they were requested, each exactly once and with the parameters of its own request; the last one requested is the one which is loaded at the end. A route which fails shows its error, exactly then, and does not prevent the next one. Nothing is executed before the route in progress has ended.", "quantifier": "all sequences of requests, ends and failures of routes, in every interleaving, any number of them", "why_tests_cant": "routes load configurations asynchronously over MIDI and the network; requests can arrive at every moment in between, and the guarantee is about all interleavings", "anchors": ["web/htdocs/js/routing/CallbackQueue.js", "web/htdocs/js/routing/Routing.js: #executeRoute", "web/htdocs/js/Controller.js: handle"]}
{"id": "C95", "title": "Opening a configuration by its name opens this configuration", "statement": "Whatever the name of a controller port, an example, a template or a preset is: selecting it in the web application opens exactly the configuration with this name, the files of examples and templates are loaded from the folder selected, and the title shown is its name. Two different presets are never taken for each other.", "quantifier": "all names (any characters), all paths of the page", "why_tests_cant": "names are free texts of the user or the operating system, encoded twice and decoded two or three times by the browser, the router and the application; unit tests can only try some names", "anchors": ["web/htdocs/js/routing/Routing.js: #setup, call", "web/htdocs/js/Controller.js: getControllerUrl", "web/htdocs/js/ui/PySwitchUI.js: #initLoadBrowser, #initSaveBrowser", "web/htdocs/js/model/configurations/WebConfiguration.js", "web/htdocs/lib/sammy-latest.min.js: lookupRoute, runRoute, routablePath, _decode"]}
{"id": "C96", "title": "A search on all MIDI ports ends with exactly one result", "statement": "When the web application searches all MIDI ports for a controller or a client, it reports exactly one result: the first device which answers in time, or that there is none when the time of all attempts is over. Afterwards nothing listens to the ports any more, and late answers have no effect. PySwitch is then connected to the device found, or to the virtual client of the configuration. What the user chooses stays connected.", "quantifier": "all ports, all orders of answers and timeouts, late and repeated ones included, any number of searches and choices", "why_tests_cant": "answers and timeouts of many ports interleave arbitrarily, and the attempts cancel each other through a shared map", "anchors": ["web/htdocs/js/midi/MidiHandler.js: scan, getMatchingPortPairs", "web/htdocs/js/ClientController.js: init, #scan, #scanPort, #connect", "web/htdocs/js/midi/MidiBridgeHandler.js: connect", "web/htdocs/js/DeviceController.js: scan"]}
{"id": "C97", "title": "Pages, names of new pagers and colors in the action dialog", "statement": "In the list of pages of a pager, editing, adding, removing and moving pages changes exactly the page the user acts on: a new page gets an ID which no other page has, a removed page is the one whose button has been pressed, and all other pages stay as they are. A new pager or encoder button gets a name which is not used yet, and the search for it ends. A color chosen with the picker is written as (r, g, b) with its components, and the picker shows each color of the configuration as it is.", "quantifier": "all lists of pages, all histories of what the user does, all configurations, all colors", "why_tests_cant": "the handlers capture IDs when a row is shown, IDs are free texts, and the number of names and colors is unlimited", "anchors": ["web/htdocs/js/ui/parser/PagesList.js: set, get, #addPage, #removePage, #getNextPageId", "web/htdocs/js/ui/parser/PagerProperties.js: #getNextPagerAssign", "web/htdocs/js/ui/parser/ActionPropertiesEncoder.js: #getNextEncoderAssign", "web/htdocs/js/misc/Tools.js: hexToRgb, rgbToHex, autoQuote"]}
{"id": "C98", "title": "Rig volume boost", "statement": "When the volume of the current rig is known, switching the volume boost on sets the rig to the boost volume, and switching it off sets it back to exactly the former volume, in all modes of the switch, however often it is switched and however late the answers of the Kemper arrive. The boost is shown as active exactly when the volume of the rig has reached the boost volume. Without remembering, switching off sets 0 dB.", "quantifier": "all boost volumes, switch modes, rigs and volumes, all sequences of pushes, releases, requests, late answers, page changes and changes on the Kemper", "why_tests_cant": "the former volume is only known from answers which arrive at any time, between any pushes; the state is changed by pushes and by answers", "anchors": ["content/lib/pyswitch/clients/kemper/actions/rig_volume_boost.py: RIG_VOLUME_BOOST", "content/lib/pyswitch/controller/callbacks/__init__.py: BinaryParameterCallback", "content/lib/pyswitch/controller/actions/__init__.py: PushButtonAction"]}
{"id": "C99", "title": "MIDI monitor", "statement": "While the MIDI monitor of the web application runs, each message is shown as the last row with its direction and name, and the last 100 rows are kept. Messages the user has chosen to ignore, and all others of the same name, are not shown any more, also after the page has been loaded again, until they are removed from the list of ignored messages; then they are shown again. Nothing else is hidden. A paused monitor shows nothing new.", "quantifier": "all histories of messages, clicks and page loads, all messages, all ways to name messages", "why_tests_cant": "ignored messages accumulate over the whole history and over page loads, and are compared by name or by bytes", "anchors": ["web/htdocs/js/ui/misc/MidiMonitor.js: addMessage, #doExclude, #excludeMessage, #includeMessage, #cleanup, #stop, #resume", "web/htdocs/js/misc/LocalState.js: get, set", "web/htdocs/js/misc/Tools.js: compareArrays"]}
{"id": "C100", "title": "Tabs of the web application", "statement": "At any time at most one tab of the panel can be seen, with its own buttons. As long as there are tabs, one of them is seen. Choosing a tab shows it, and it stays the one which is seen, also when the page is loaded again or other clients are connected, until the user chooses another one. The tabs are those for the files, the monitor and the settings, and that of the client. The panel stays open or closed as the user has left it.", "quantifier": "all histories of loading configurations, connecting clients with and without a user interface, clicks, and page loads; all names of clients", "why_tests_cant": "tabs come and go with clients in any order relative to clicks and page loads, and what is shown depends on a name remembered from any time before", "anchors": ["web/htdocs/js/ui/tabs/Tabs.js: add, remove, setActive, setActiveByName, show, hide", "web/htdocs/js/ui/tabs/Tab.js: activate, deactivate, destroy", "web/htdocs/js/ui/PySwitchUI.js: applyConfig, showVirtualClient"]}
{"id": "C101", "title": "Popups of the web application", "statement": "A popup which is opened can be seen, and stays so until it is closed. The escape key, a click outside and the close button close it. If the popup wants that (unsaved changes), the user is asked first, once, and it stays open if they say no. When it has been closed, this is told once. The close button closes its own popup only, the return key closes none. Popups which are not open are neither asked for nor told to be closed.", "quantifier": "all histories of opening and closing any number of popups, keys and clicks, with all answers of the user and all combinations of options", "why_tests_cant": "all popups share one container and the handlers of one window, so what a click does depends on which popups have been opened and closed before, in which order", "anchors": ["web/htdocs/js/ui/popups/Popup.js: show, hide", "web/htdocs/js/ui/PySwitchUI.js: getPopup, getBrowserPopup"]}
{"id": "C102", "title": "Browsing for files, ports and templates in the web application", "statement": "The browser lists the entries of a folder which can be chosen or contain others, each once, sorted by their names. Choosing an entry which can be opened calls it, and only it; choosing a folder shows its entries; the path and the back button lead to the folders above. When the browser is opened again, it shows the folder shown last, or, if that has gone, the next one above which is still there. Opening the browser alone chooses nothing.", "quantifier": "all trees of entries, also changing between the times the browser is opened, all sort orders, all histories of opening, choosing, going up and closing", "why_tests_cant": "trees are of any depth and width and come from files, ports and folders of the user; what is shown depends on where they have been before", "anchors": ["web/htdocs/js/ui/popups/BrowserPopup.js: browse, #sort, #getData", "web/htdocs/js/ui/popups/BrowserEntry.js: getHierarchicalPath, resolvePath, getSortString, isCallable"]}
{"id": "C103", "title": "Switches which send messages or keys", "statement": "A switch with actions for arbitrary MIDI messages or keys sends, whenever it is pushed, the message or the keys of each enabled action, in their order, and whenever it is released, the messages for releasing, and nothing at any other time. Each complete press sends the message and then the message for releasing exactly once. Actions which only show a text send nothing. Pushing a switch never ends the program.", "quantifier": "all histories of polls of the switch, with the actions enabled or disabled and USB connected or not at any time; all lists of actions and all contents of messages", "why_tests_cant": "what is sent depends on the whole history of positions and on actions being enabled and disabled in between, at any point", "anchors": ["content/lib/pyswitch/clients/local/actions/custom.py: CUSTOM_MESSAGE, _CustomMessageCallback", "content/lib/pyswitch/clients/local/actions/hid.py: HID_KEYBOARD, HidCallback", "content/lib/pyswitch/clients/local/actions/fixed_text.py: DISPLAY_FIXED_TEXT", "content/lib/pyswitch/controller/inputs.py: SwitchController.process"]}
{"id": "C104", "title": "Switches and wheels of the emulated controller", "statement": "The emulated controller sees a switch as pushed exactly while the mouse holds it (its button went down above it, and it has neither been released nor has the pointer left the switch) or a finger is on it. Each click on a switch pushes each of its enabled actions once. The wheel has the position it has been dragged to, over any number of drags.", "quantifier": "all histories of mouse moves, mouse buttons, touches and drags, with polls of the controller at any points in between; all lists of actions", "why_tests_cant": "events of the browser and polls of the emulated controller interleave arbitrarily, and the position depends on the whole history", "anchors": ["web/htdocs/js/ui/PySwitchFrontend.js: #createInput", "web/htdocs/js/ui/misc/WcRotationInput.js: onPointerDown, onPointerMove, onPointerUp", "web/htdocs/python/wrappers/wrap_io.py: DigitalInOut, IncrementalEncoder", "content/lib/pyswitch/hardware/adafruit/AdafruitSwitch.py: pushed"]}
{"id": "C105", "title": "Typing code into a tab of the web application", "statement": "A tab for a file contains what the user has typed, or the code of the configuration which has been opened or changed since. It is marked exactly while it contains something typed which has not been applied. A tab which is not marked contains the code of the configuration which is open. Applying takes over exactly what is in the tab; nothing else in the tab changes the configuration.", "quantifier": "all histories of opening configurations, typing, choosing tabs and applying, with accepted and rejected code, and timeouts at any later point", "why_tests_cant": "contents are set by timeouts, so typing, choosing tabs and opening configurations can come in between in any order", "anchors": ["web/htdocs/js/ui/editors/CodeEditor.js: setConfig, apply, refresh, #setContent", "web/htdocs/js/ui/tabs/Tabs.js: setActive", "web/htdocs/js/model/parser/Parser.js: updateFromSource"]}
{"id": "C106", "title": "Transposing with an encoder, and values shown as texts", "statement": "The encoder for the transposition of the rig never transposes by more than 36 half steps up or down. The text shown says by how many half steps: without preselection what has just been sent, with preselection what accepting will send. Turning by some steps transposes by as many half steps. The text for a volume is the level in dB rounded to one tenth with its sign; turning up never shows less.", "quantifier": "all histories of turning, accepting, cancelling and reports of the device; all values of a volume from 0 percent on (exact numbers), all offsets", "why_tests_cant": "the value shown and the value sent come from state that depends on the whole history; the volume formula has two branches which must fit together for every value", "anchors": ["content/lib/pyswitch/clients/kemper/actions/rig_transpose.py: ENCODER_RIG_TRANSPOSE, _convert_transpose", "content/lib/pyswitch/clients/kemper/callbacks/convert_volume.py: convert_volume", "content/lib/pyswitch/controller/actions/EncoderAction.py: EncoderAction.process, accept, cancel"]}
{"id": "C107", "title": "Breaking texts into lines on the display of the emulated controller", "statement": "A text with a limited width is broken into lines which contain the same words in the same order. Lines of several words fit. A line is only broken if the next word does not fit into it; a text which fits is shown in one line, without additional characters.", "quantifier": "all texts, all widths of the display and all measures for the width of a text", "why_tests_cant": "depends on the widths of all prefixes of all lines, for any font", "anchors": ["web/htdocs/python/wrappers/wrap_adafruit_display.py: wrap_text_to_pixels", "content/lib/pyswitch/ui/elements.py: DisplayLabel.__wrap_text"]}
{"id": "C108", "title": "The general settings of a switch in the web application", "statement": "The dialog for the settings of a switch shows the hold time and the repetition the firmware uses. After any changes, the firmware uses what was chosen last; other settings of the switch, other switches and their order stay as they are.", "quantifier": "all configurations, all switches and all sequences of changes in the dialog", "why_tests_cant": "arbitrary configurations (arguments present or missing, any code as value) and arbitrary sequences of changes", "anchors": ["web/htdocs/js/ui/parser/InputSettings.js: setup", "web/htdocs/js/model/parser/ParserInput.js: holdTimeMillis, setHoldTimeMillis, holdRepeat, setHoldRepeat", "web/htdocs/js/model/parser/Parser.js: inputData", "content/lib/pyswitch/controller/inputs.py: SwitchController.__init__"]}
{"id": "C109", "title": "Starting the firmware, and errors in the files of the user", "statement": "At start the display is set up before any file of the user is read, so that errors can be seen. Without errors the firmware keeps running. With the MIDI bridge, an error in a file of the user or at any later time is handed to the bridge, so that the file can be replaced over MIDI; without, the program ends with the error. Nothing runs after the error. Explore mode does not depend on the other files. The computer can write files exactly if the switch is held while booting, and the firmware exactly if not.", "quantifier": "all combinations of options, all sets of failing steps (including any round of the loop), any number of rounds, both levels of the switch", "why_tests_cant": "the error may occur at any step or in any round of the endless loop", "anchors": ["content/lib/pyswitch/process.py", "content/boot.py"]}
{"id": "C110", "title": "Messages to the user of the web application", "statement": "Each message appears at the top of the list. Errors, warnings and messages of unknown type can be seen until they are clicked or the list is cleared; infos and success messages for 3 seconds at most; a message flagged to make room until the next one. Nothing else hides a message, the order is kept, no message comes back, and a click runs the callback only if the message can be seen.", "quantifier": "all sequences of messages (any types and flags), clicks, waiting times and clearings", "why_tests_cant": "arbitrary interleavings of messages, timers and clicks", "anchors": ["web/htdocs/js/ui/misc/Notifications.js: message, reset"]}
{"id": "C111", "title": "Watching the memory of the device", "statement": "Sizes are shown rounded to the nearest tenth in the largest unit of which they are at least one, and always below 1024 of it. Texts are filled up to exactly the wanted length without changing them. Nothing is printed before watching has been started. After that every call prints the free memory, or only if it has changed since the last line, and the amounts in the lines add up to the total change since the start.", "quantifier": "all sizes, all texts and lengths, all sequences of calls with any amounts of free memory", "why_tests_cant": "arbitrary sizes and arbitrary histories of the memory", "anchors": ["content/lib/pyswitch/stats.py: Memory", "content/lib/pyswitch/misc.py: format_size, fill_up_to"]}
{"id": "C112", "title": "The traffic shown by the virtual Kemper", "statement": "Every message received or sent by the virtual Kemper is listed exactly once, in order, with the messages since the last measurement. The rates which are shown are the numbers of messages per second.", "quantifier": "all sequences of messages in both directions and of timer events at any times, whatever the parsers take", "why_tests_cant": "arbitrary interleavings of messages and timers, timers may be late", "anchors": ["web/htdocs/clients/kemper/virtual/VirtualKemperStats.js", "web/htdocs/clients/kemper/virtual/VirtualKemperClient.js: doSend, queueMessage", "web/htdocs/clients/kemper/virtual/VirtualKemperParameters.js: parse"]}
{"id": "C113", "title": "Names of actions in the web application", "statement": "The name of an action says what it does: which rig is selected, that the current rig is selected again, or between which rigs it toggles; the same for banks, effect buttons and effect slots, also if arguments are left out. Different actions have different names.", "quantifier": "all lists of parameters with defaults, all calls with any arguments (without braces), all function names in capital letters", "why_tests_cant": "arbitrary argument values and arbitrary parameter lists go through textual replacement", "anchors": ["web/htdocs/clients/kemper/KemperFunctionMeta.js: getShortDisplayName, #replaceParameterTokens", "web/htdocs/js/model/parser/FunctionMeta.js: underscoreToDisplayName, getArgument"]}
{"id": "C114", "title": "MIDI channels of the emulator", "statement": "The emulator hears exactly the MIDI channel which was chosen last (or all channels), and sends everything on the output channel which was chosen last; the settings dialog shows these channels, also after loading the page again. Other settings do not change the channels, and the channels do not change other settings.", "quantifier": "all histories of typed channels, resets, debug options and of everything else kept in the browser", "why_tests_cant": "arbitrary histories and arbitrary typed texts; settings share one place in the browser with others", "anchors": ["web/htdocs/js/model/CommunicationSettings.js: get, set, getAttribute, setAttribute", "web/htdocs/js/ui/misc/EmulatorSettings.js: #getCommSettings, #setCommFromInput, #resetCommSettings", "web/htdocs/python/PySwitchRunner.py: _init_default", "web/htdocs/python/adafruit_midi/__init__.py: MIDI.in_channel, MIDI.out_channel"]}
{"id": "C115", "title": "Parameters of tuners and labels in the display editor", "statement": "The fields for a tuner show the values the firmware uses, given or by default. After any changes the firmware uses what was typed or chosen last, a cleared field means the default, and arguments which were not changed stay as they are, in their order. The same holds for the layout of labels.", "quantifier": "all tuners and labels with any arguments in any order, all sequences of changes, all typed texts, all lists of mappings", "why_tests_cant": "arbitrary arguments and arbitrary sequences of changes; defaults are written down twice, in the editor and in the firmware", "anchors": ["web/htdocs/js/ui/editors/display/DisplayNode.js: getParameter, setParameter", "web/htdocs/js/ui/editors/display/types/TunerDisplayTypeParameterList.js: #setupParameters", "web/htdocs/js/ui/editors/display/types/DisplayLabelTypeLayout.js: getParameter, setParameter", "content/lib/pyswitch/ui/elements.py: TunerDisplay.__init__, DisplayLabelLayout.__init__"]}
{"id": "C116", "title": "Morphing in the virtual Kemper", "statement": "Pressing the morph button fades the morph state evenly, within four seconds, to the end which is farther away; pressing again leads back, and the state stays within its range. The button of the current rig does the same if this option is on, as its checkbox shows; selecting another rig begins at 0 again.", "quantifier": "all histories of updates, button presses, rig selections, pedal and slider movements and changes of the option, all numbers of updates", "why_tests_cant": "arbitrary interleavings of a timed fade with other changes; the end is reached after many rounded steps", "anchors": ["web/htdocs/clients/kemper/virtual/VirtualKemperMorph.js: update, triggerButton, setFadeSpeed", "web/htdocs/clients/kemper/virtual/VirtualKemperClientSetup.js: onRigIdChange, #setupMorph", "web/htdocs/clients/kemper/virtual/VirtualKemperClientUI.js"]}
{"id": "C117", "title": "Which actions, mappings and callbacks the web application offers", "statement": "Offered is exactly every function on module level, not beginning with an underscore, of every python file below the given directory, at any depth, except files beginning with two underscores; each with the import path of its file. No file is examined twice. A directory which does not exist offers nothing.", "quantifier": "all trees of directories with different names in each directory, all contents of the files, all paths", "why_tests_cant": "arbitrarily deep trees", "anchors": ["web/htdocs/js/model/parser/FunctionExtractor.js: get", "web/htdocs/python/parser/misc/FunctionExtractor.py: get", "web/htdocs/js/model/parser/ClassNamesExtractor.js: get"]}
{"id": "C118", "title": "Which mappings can be chosen for a parameter in the web application", "statement": "Offered are exactly all possible calls of all mappings of all clients: with each number of the range and each other value which the metadata names for the first parameter (by name if there are more parameters), and None where it is allowed; sorted, and each once.", "quantifier": "all lists of clients and mappings with any parameters, ranges and values", "why_tests_cant": "arbitrary metadata; sorting and concatenation of lists of any length", "anchors": ["web/htdocs/js/model/parser/MappingOptions.js: generate", "web/htdocs/js/model/parser/ParameterRange.js: getValues"]}
{"id": "C119", "title": "Connecting the emulator to a client device", "statement": "Whatever was chosen before, the emulator is connected to the client chosen last: a port which is there, a simulated client, or nothing if there is no such port. Only the connected client listens to a port or is simulated. From the port exactly its messages since the choice arrive, each once and in order. The tab of the virtual Kemper is there exactly while it is connected.", "quantifier": "all histories of choices, messages on all ports, plugging and unplugging, and reading", "why_tests_cant": "arbitrary interleavings of messages and choices", "anchors": ["web/htdocs/js/ClientController.js: #connect", "web/htdocs/js/PySwitchRunner.js: setMidiWrapper", "web/htdocs/js/midi/PythonMidiWrapper.js", "web/htdocs/js/midi/MidiHandler.js: init, addListener, removeListener, getPortPair", "web/htdocs/js/ui/PySwitchUI.js: showVirtualClient"]}
{"id": "C120", "title": "Icons of actions in the web application", "statement": "The icons of an action say exactly if it uses the LEDs (argument, or else the default), which display it uses, if it belongs to a page or else has an enable callback, and if it is assigned to a variable, each once. Pages without a color of their own get five colors in turn; a page keeps its color, and up to five pages which were first seen one after the other have different colors.", "quantifier": "all actions; all histories of pages of all pagers", "why_tests_cant": "depends on the whole history of what was shown before", "anchors": ["web/htdocs/js/ui/parser/ParserFrontendIcons.js"]}
{"id": "C121", "title": "Finding a Kemper at a MIDI port", "statement": "When searching, the web application takes a port for a Kemper exactly if a value of the rig volume arrives from it: a system exclusive message of this manufacturer with the right function, page and number, whatever product, device and value. This is exactly when the firmware understands the same message as its rig volume. The request is the one of the firmware, and its own echo is not taken for an answer.", "quantifier": "all messages (lists of bytes of any length)", "why_tests_cant": "all messages of any length, from any device", "anchors": ["web/htdocs/clients/kemper/KemperClientDetector.js: test", "content/lib/pyswitch/controller/client.py: ClientParameterMapping.parse_against", "content/lib/pyswitch/clients/kemper/mappings/rig.py: MAPPING_RIG_VOLUME"]}
{"id": "C122", "title": "Parameters of the callbacks of a display", "statement": "In the display editor, after any changes of the parameters of a callback, the callback gets for each parameter what was chosen last, and what it got before if nothing was chosen; the field shows what the callback gets; other arguments keep their values and order, and no argument is given twice.", "quantifier": "all callbacks, parameters, arguments and histories of changes", "why_tests_cant": "all parameter types and defaults, and histories of any length", "anchors": ["web/htdocs/js/ui/editors/display/DisplayCallbackParameterList.js: setup", "web/htdocs/js/ui/misc/ParameterList.js: convertValue, unconvertValue", "web/htdocs/js/model/parser/ParameterMeta.js: type, getDefaultValue"]}
{"id": "C123", "title": "What can be chosen from the lists", "statement": "In the lists of the web application, exactly the actions for the kind of input are offered, each once, from all clients; when an action is edited, that one is selected at first and no other. The lists of controllers have each time exactly the ports with an input and an output of the same manufacturer and name, and the additional entries; the list of presets has all presets in their order, and the entry for a new one if wanted.", "quantifier": "all clients and actions, all sets of ports at each time a list is opened, all presets", "why_tests_cant": "all definitions of actions, and any history of connecting and disconnecting controllers between openings", "anchors": ["web/htdocs/js/ui/parser/ActionsProvider.js: getToc", "web/htdocs/js/ui/misc/PortsProvider.js: getToc", "web/htdocs/js/ui/presets/LocalPresetsProvider.js: getToc", "web/htdocs/js/ui/misc/SingleEntryProvider.js: getToc"]}
{"id": "C124", "title": "The callback of a label", "statement": "In the display editor, exactly the callbacks for labels are offered. After any choices, by list or text field, the label has the callback chosen last, or none if the field was cleared, and the field shows it. A newly chosen callback gets exactly the arguments which Python needs; choosing the present one again keeps its arguments; the other parameters of the label are not touched. What the field shows can be typed again without changing anything.", "quantifier": "all sets of clients and callbacks, all labels, all histories of choices", "why_tests_cant": "all definitions of callbacks and histories of any length", "anchors": ["web/htdocs/js/ui/editors/display/types/DisplayLabelTypeParameterList.js: #setupSelectCallbackParameter, #setCallback", "web/htdocs/js/model/parser/Parser.js: getCallbackDefinition"]}
{"id": "C125", "title": "Devices and their inputs", "statement": "The web application takes a configuration for the device whose module it imports. For a device, it lists exactly the inputs of its module, each once and in their order, with their kind, their (first) port and a name for the screen which tells the kind; each input is found by its name. The inputs of the devices of PySwitch have different names, and are told apart by kind and port.", "quantifier": "all texts of configurations, all modules with any inputs and other definitions, all three devices", "why_tests_cant": "all texts and modules", "anchors": ["web/htdocs/js/model/Device.js: Device.getInstance", "web/htdocs/python/parser/PySwitchHardware.py: PySwitchHardware.get, _display_name", "web/htdocs/js/model/parser/Parser.js: input, getHardwareInfo", "content/lib/pyswitch/hardware/devices/pa_midicaptain_10.py"]}
