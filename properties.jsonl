{"id": "C01", "title": "AT prefix detection is exact", "statement": "Cellular_ATIsPrefixPresent reports success exactly for non-NULL strings of 1..256 bytes, and then reports 'present' exactly when the string has the form '+' w ':' rest where w contains only letters, digits, '_' and '+'; otherwise it returns CELLULAR_AT_BAD_PARAMETER and leaves the result untouched.", "quantifier": "every NUL-terminated byte string of every length (and NULL)", "why_tests_cant": "The input space is every byte string; unit tests exercise a handful of literals and cannot show the absence of a misclassified string.", "anchors": ["source/cellular_at_core.c:Cellular_ATIsPrefixPresent", "source/include/cellular_config_defaults.h:CELLULAR_CHECK_IS_PREFIX_CHAR"]}
{"id": "C02", "title": "String-prefix test is exact and memory safe", "statement": "Cellular_ATStrStartWith reports true exactly when the second string is a prefix of the first (both 1..256 bytes), never reading past either terminator, even if the prefix is longer than the string.", "quantifier": "every pair of NUL-terminated strings", "why_tests_cant": "The input space is every byte string; unit tests exercise a handful of literals and cannot show the absence of a misclassified string.", "anchors": ["source/cellular_at_core.c:Cellular_ATStrStartWith"]}
{"id": "C03", "title": "Prefix removal returns the exact payload", "statement": "Cellular_ATRemovePrefix succeeds exactly when a string of 1..256 bytes contains ':', and then the caller's pointer designates exactly the text after the first ':'.", "quantifier": "every NUL-terminated byte string of every length (and NULL)", "why_tests_cant": "The input space is every byte string; unit tests exercise a handful of literals and cannot show the absence of a misclassified string.", "anchors": ["source/cellular_at_core.c:Cellular_ATRemovePrefix"]}
{"id": "C04", "title": "White-space and quote filters keep every other byte in order", "statement": "Cellular_ATRemoveAllWhiteSpaces / RemoveAllDoubleQuote / RemoveLeadingWhiteSpaces leave exactly the non-filtered bytes of the string, in order, and write no byte outside the string they were given (in-place, including its terminator).", "quantifier": "every NUL-terminated byte string of every length (and NULL) placed anywhere in a larger buffer", "why_tests_cant": "In-place rewriting must be right for every arrangement of filtered and kept bytes and must not touch neighbours for any layout.", "anchors": ["source/cellular_at_core.c:Cellular_ATRemoveAllWhiteSpaces", "source/cellular_at_core.c:Cellular_ATRemoveAllDoubleQuote", "source/cellular_at_core.c:Cellular_ATRemoveLeadingWhiteSpaces"]}
{"id": "C05", "title": "Trailing white-space removal leaves no trailing white space", "statement": "After Cellular_ATRemoveTrailingWhiteSpaces succeeds, the string is the input without its trailing white space.", "quantifier": "every NUL-terminated byte string of every length (and NULL)", "why_tests_cant": "The input space is every byte string; unit tests exercise a handful of literals and cannot show the absence of a misclassified string.", "anchors": ["source/cellular_at_core.c:Cellular_ATRemoveTrailingWhiteSpaces"]}
{"id": "C06", "title": "Outermost double quotes are removed, nothing else", "statement": "Cellular_ATRemoveOutermostDoubleQuote turns \"text\" into text for every quoted string and removes at most one quote at each end, leaving all other bytes unchanged.", "quantifier": "every NUL-terminated byte string of every length (and NULL)", "why_tests_cant": "The input space is every byte string; unit tests exercise a handful of literals and cannot show the absence of a misclassified string.", "anchors": ["source/cellular_at_core.c:Cellular_ATRemoveOutermostDoubleQuote"]}
{"id": "C07", "title": "Tokenising a response yields exactly its comma-separated fields", "statement": "Calling Cellular_ATGetNextTok repeatedly until it fails yields, in order, exactly the fields of the string between commas (empty inner fields included, one final empty field omitted); the iteration always terminates and loses no byte.", "quantifier": "every string of 1..256 bytes; every number of calls", "why_tests_cant": "Tests use a few short responses; the claim is about every placement of delimiters and about termination of the caller's loop.", "anchors": ["source/cellular_at_core.c:Cellular_ATGetNextTok", "source/cellular_at_core.c:Cellular_ATGetSpecificNextTok"]}
{"id": "C08", "title": "Token splitting is memory safe for every delimiter string", "statement": "Cellular_ATGetSpecificNextTok never dereferences NULL or reads outside the string, for every non-NULL delimiter string.", "quantifier": "every string and every delimiter string", "why_tests_cant": "The input space is every byte string; unit tests exercise a handful of literals and cannot show the absence of a misclassified string.", "anchors": ["source/cellular_at_core.c:Cellular_ATGetSpecificNextTok"]}
{"id": "C09", "title": "Hex decoding is exact and bounded", "statement": "Cellular_ATHexStrToHex succeeds exactly when the string is 1..256 bytes and its number of digit pairs is smaller than the destination length; it then writes exactly one byte per digit pair, equal to the encoded byte for valid hex (both cases), marks pairs with an invalid digit as 0xFF-derived values, and never writes outside the destination.", "quantifier": "every string and every destination length", "why_tests_cant": "Round-trip must hold for every byte sequence; bounds must hold for every destination length.", "anchors": ["source/cellular_at_core.c:Cellular_ATHexStrToHex", "source/cellular_at_core.c:_charToNibble"]}
{"id": "C10", "title": "Digit check is exact", "statement": "Cellular_ATIsStrDigit reports true exactly when a 1..256 byte string consists only of decimal digits.", "quantifier": "every NUL-terminated byte string of every length (and NULL)", "why_tests_cant": "The input space is every byte string; unit tests exercise a handful of literals and cannot show the absence of a misclassified string.", "anchors": ["source/cellular_at_core.c:Cellular_ATIsStrDigit"]}
{"id": "C11", "title": "Keyword-table matching is exact for every table size", "statement": "Cellular_ATcheckErrorCode terminates and reports true exactly when some entry of the keyword table is a prefix of the line.", "quantifier": "every line and every keyword table of every size", "why_tests_cant": "Table size is unbounded; tests use tables of a few entries and cannot see a loop-counter overflow.", "anchors": ["source/cellular_at_core.c:Cellular_ATcheckErrorCode"]}
{"id": "C12", "title": "String duplication is a faithful, terminated copy", "statement": "Cellular_ATStrDup yields a NUL-terminated copy of the source (1..256 bytes), allocates exactly strlen+1 bytes and writes only inside them; on allocation failure it reports NO_MEMORY.", "quantifier": "every source string and both allocator outcomes", "why_tests_cant": "The input space is every byte string; unit tests exercise a handful of literals and cannot show the absence of a misclassified string.", "anchors": ["source/cellular_at_core.c:Cellular_ATStrDup"]}
{"id": "C13", "title": "Integer parsing returns the written number or an error", "statement": "Cellular_ATStrtoi returns the value of every decimal (or base 2/16) numeral that fits int32; a string without a leading numeral yields an error and leaves the output untouched; a numeral outside int32 is never reported as a successful different value.", "quantifier": "every string, base and both 32-bit and 64-bit long", "why_tests_cant": "The value space is 2^32 and beyond; tests sample it.", "anchors": ["source/cellular_at_core.c:Cellular_ATStrtoi"]}
{"id": "C14", "title": "Every received line is classified by the documented rule", "statement": "A complete line is a URC if it equals an entry of the URC-without-prefix table, or carries a prefix that is not the one expected by the command in flight; it belongs to the command in flight if it carries the expected prefix or no prefix while a command is pending; otherwise it is undefined.", "quantifier": "every line, every URC token table, every in-flight command type and expected prefix", "why_tests_cant": "Combination of arbitrary lines, tables and command states.", "anchors": ["source/cellular_pktio.c:_getMsgType", "source/cellular_pktio.c:_checkUrcTokenWoPrefix"]}
{"id": "C15", "title": "Final result codes decide the command status by token priority", "statement": "While a command is pending, a line matching the extra-success or success token table completes it with success; otherwise a line matching the error table completes it with failure; otherwise it is an intermediate line. No other line completes a command that expects a result code.", "quantifier": "every line, every token table", "why_tests_cant": "Arbitrary tables and lines.", "anchors": ["source/cellular_pktio.c:_Cellular_ProcessLine"]}
{"id": "C16", "title": "Intermediate lines are delivered complete and in order", "statement": "When a command completes, its response callback sees exactly the intermediate lines that arrived since it was sent, in arrival order, according to the command type (at most one line for single-line types).", "quantifier": "every sequence of response lines, every command type", "why_tests_cant": "History-dependent over unbounded sequences.", "anchors": ["source/cellular_pktio.c:_processIntermediateResponse", "source/cellular_pktio.c:_saveData", "source/cellular_pktio.c:_handleMsgType"]}
{"id": "C17", "title": "A prefixed single-line response only ever contains a line with that prefix", "statement": "For CELLULAR_AT_WITH_PREFIX and CELLULAR_AT_MULTI_WITH_PREFIX commands every line delivered to the response callback starts with the requested prefix.", "quantifier": "every sequence of lines from the modem", "why_tests_cant": "Depends on lines the modem may interleave at any moment.", "anchors": ["source/cellular_pktio.c:_getMsgType", "source/cellular_pktio.c:_processIntermediateResponse"]}
{"id": "C18", "title": "The receive path never accesses memory outside the receive buffer", "statement": "For every sequence of chunks delivered by the comm interface (each at most the size requested) and every result of the port's preprocessing callbacks that respects its contract, all reads and writes of the receive path stay inside the read buffer and the space requested from the comm interface is never larger than the space left.", "quantifier": "every chunk sequence, every callback behaviour within contract, every buffer size", "why_tests_cant": "Unbounded histories of chunk boundaries and callback results.", "anchors": ["source/cellular_pktio.c:_Cellular_ReadLine", "source/cellular_pktio.c:_handleAllReceived", "source/cellular_pktio.c:_handleData", "source/cellular_pktio.c:_findLineInStream", "source/cellular_pktio.c:_getNextLine"]}
{"id": "C19", "title": "Line dispatch does not depend on how the byte stream is chunked", "statement": "For every way of cutting a modem byte stream into chunks, the URCs and command responses dispatched are those obtained by splitting the stream at CR/LF/NUL and dispatching each non-empty line in order.", "quantifier": "every byte stream and every chunking that fits the buffer", "why_tests_cant": "Chunk boundaries are chosen by the UART/driver: exponentially many.", "anchors": ["source/cellular_pktio.c:_Cellular_ReadLine", "source/cellular_pktio.c:_handleAllReceived", "source/cellular_pktio.c:_findLineInStream", "source/cellular_pktio.c:_handleLeftoverBuffer"]}
{"id": "C20", "title": "Buffered response lines are not altered before they are delivered", "statement": "Lines stored for the command in flight keep their bytes until the response callback has run, whatever else arrives meanwhile.", "quantifier": "every byte stream, including ones longer than the read buffer", "why_tests_cant": "Needs streams that fill the buffer at particular offsets.", "anchors": ["source/cellular_pktio.c:_Cellular_ReadLine", "source/cellular_pktio.c:_saveData"]}
{"id": "C21", "title": "The reader keeps reading while the modem has data", "statement": "Whenever the comm interface still has received bytes, the reader's next read returns a non-zero count, so the receive loop does not go back to sleep with unread data.", "quantifier": "every reachable buffer state", "why_tests_cant": "Only specific cumulative lengths (read offset exactly at the end of the buffer) expose it.", "anchors": ["source/cellular_pktio.c:_Cellular_ReadLine", "source/cellular_pktio.c:_pktioReadThread"]}
{"id": "C22", "title": "Binary payloads are delivered byte exact for every fragmentation", "statement": "Once a data prefix announces n bytes and they fit the buffer, exactly the next n bytes of the stream, whatever their values (including CR, LF, NUL) and however fragmented, become the data item of the response and the bytes after it are parsed as lines.", "quantifier": "every payload, every fragmentation of it", "why_tests_cant": "Payload bytes and cut points are arbitrary.", "anchors": ["source/cellular_pktio.c:_handleData", "source/cellular_pktio.c:_handleDataResult", "source/cellular_pktio.c:_handleRxDataEvent"]}
{"id": "C23", "title": "Unrecognised input only discards itself", "statement": "An unexpected line (undefined, not accepted by the module's handler) does not cause later, well-formed lines to be lost.", "quantifier": "every stream and chunking", "why_tests_cant": "Depends on what shares a chunk with the bad line.", "anchors": ["source/cellular_pktio.c:_handleMsgType", "source/cellular_pktio.c:_handleAllReceived"]}
{"id": "C24", "title": "A command is sent exactly once, as command bytes followed by CR", "statement": "Sending a command transmits exactly the bytes of the command followed by one CR; commands longer than the send buffer are rejected with nothing transmitted and no state changed; the send buffer is never overrun.", "quantifier": "every command string", "why_tests_cant": "Boundary at the buffer size for arbitrary commands.", "anchors": ["source/cellular_pktio.c:_Cellular_PktioSendAtCmd"]}
{"id": "C25", "title": "Expected-prefix storage is bounded and faithful", "statement": "The response prefix given with a command is the one lines are compared with, for every prefix string; storing it never overruns or leaves an unterminated buffer.", "quantifier": "every prefix string of every length", "why_tests_cant": "Length boundary.", "anchors": ["source/cellular_pktio.c:_setPrefixByAtCommandType"]}
{"id": "C26", "title": "A command is not reported successful if it was not fully transmitted", "statement": "If the comm interface transmits fewer bytes than the command, the request does not report success on that account.", "quantifier": "every comm-interface behaviour", "why_tests_cant": "Environment behaviour is adversarial.", "anchors": ["source/cellular_pktio.c:_Cellular_PktioSendAtCmd"]}
{"id": "C27", "title": "At most one AT command is in flight", "statement": "For every number of application threads and every interleaving with the reader thread, at most one request is between acquiring the request lock and returning at any time, so at most one command or data block is transmitted and awaited at a time.", "quantifier": "every number of threads, every schedule", "why_tests_cant": "Schedules are unbounded.", "anchors": ["source/cellular_pkthandler.c:_Cellular_PktHandler_AtcmdRequestWithCallback", "source/cellular_pkthandler.c:_Cellular_AtcmdRequestTimeoutWithCallbackRaw"]}
{"id": "C28", "title": "The status a request returns is that of its own response", "statement": "A request that returns a modem status returns the status carried by the modem's answer to that very command, never that of an earlier one.", "quantifier": "every schedule of requests, modem answers and time-outs", "why_tests_cant": "Needs races between time-out, late answers and the next request.", "anchors": ["source/cellular_pkthandler.c:_convertAndQueueRespPacket", "source/cellular_pkthandler.c:_Cellular_AtcmdRequestTimeoutWithCallbackRaw"]}
{"id": "C29", "title": "A response contains only lines of its own command", "statement": "Lines received for a command that timed out never show up in the response of a later command.", "quantifier": "every schedule of time-outs and late lines", "why_tests_cant": "History dependent.", "anchors": ["source/cellular_pkthandler.c:_Cellular_AtcmdRequestTimeoutWithCallbackRaw", "source/cellular_pktio.c:_handleMsgType"]}
{"id": "C30", "title": "After a request returns, no command is pending", "statement": "When any request function returns (success, failure, time-out), the receive path is back in the 'no command' state, so later prefixed lines are treated as URCs and unprefixed lines are not attributed to a command.", "quantifier": "every request, every outcome", "why_tests_cant": "All outcomes of the transmit and receive paths.", "anchors": ["source/cellular_pkthandler.c:_Cellular_DataSendWithTimeoutDelayRaw", "source/cellular_pkthandler.c:_Cellular_AtcmdRequestTimeoutWithCallbackRaw"]}
{"id": "C31", "title": "The response callback never runs after its request returned", "statement": "The response callback (which writes into caller-supplied memory) is never running after the request call has returned to its caller.", "quantifier": "every schedule", "why_tests_cant": "A race between time-out and the reader thread.", "anchors": ["source/cellular_pkthandler.c:_convertAndQueueRespPacket"]}
{"id": "C32", "title": "Temporary token tables and callbacks are active only during their request", "statement": "An extra success-token table or data-prefix callback supplied with a request is installed exactly while the command of that request is being sent and awaited, and nothing is left installed after it returned, for every outcome.", "quantifier": "every request sequence and outcome", "why_tests_cant": "Must hold on every exit path and for every interleaving.", "anchors": ["source/cellular_pkthandler.c:_Cellular_AtcmdRequestSuccessToken", "source/cellular_pkthandler.c:_Cellular_TimeoutAtcmdDataRecvRequestWithCallback", "source/cellular_pkthandler.c:_Cellular_AtcmdDataSend", "source/cellular_pkthandler.c:_Cellular_TimeoutAtcmdDataSendSuccessToken"]}
{"id": "C33", "title": "URC table validation accepts exactly strictly sorted tables", "statement": "_Cellular_AtParseInit reports success exactly for non-empty tables strictly increasing in string order, and an unsorted table is not accepted by library initialisation.", "quantifier": "every table", "why_tests_cant": "Table contents and sizes are arbitrary.", "anchors": ["source/cellular_pkthandler.c:_Cellular_AtParseInit", "source/cellular_common.c:libOpen"]}
{"id": "C34", "title": "URC lookup finds a handler exactly when it is registered", "statement": "For every strictly sorted table and every URC token, lookup finds the entry with exactly that name, and none if absent, in a bounded number of comparisons.", "quantifier": "every sorted table and token", "why_tests_cant": "bsearch correctness over all tables.", "anchors": ["source/cellular_pkthandler.c:_atParseGetHandler", "source/cellular_pkthandler.c:_searchCompareFunc"]}
{"id": "C35", "title": "Every URC is dispatched exactly once with its payload, or handed unmodified to the generic callback", "statement": "For a URC line '+NAME:payload', the handler registered for NAME is called once with payload; if none is registered the generic callback receives the original line.", "quantifier": "every URC line, every sorted table", "why_tests_cant": "Arbitrary lines.", "anchors": ["source/cellular_pkthandler.c:_processUrcPacket", "source/cellular_common.c:_Cellular_GenericCallback"]}
{"id": "C36", "title": "Registration parsing records exactly the fields the line carries", "statement": "For every well-formed +CREG/+CGREG/+CEREG payload the recorded registration status, area code, cell id, RAT, routing area and reject fields are those of the line; numeric fields out of range are rejected and not recorded.", "quantifier": "every payload string, every prior state", "why_tests_cant": "Field combinations and values are unbounded.", "anchors": ["source/cellular_3gpp_urc_handler.c:_Cellular_ParseRegStatus"]}
{"id": "C37", "title": "A registration event fires exactly when the registration status of that domain changed", "statement": "Processing a registration line invokes the network-registration callback at most once, exactly when the circuit-switched (CREG) or packet-switched (CGREG/CEREG) status differs from the previous one, with the right event kind and the new values.", "quantifier": "every payload, every prior state", "why_tests_cant": "All state/payload pairs.", "anchors": ["source/cellular_3gpp_urc_handler.c:_Cellular_ParseRegStatus", "source/cellular_3gpp_urc_handler.c:_Cellular_RegEventStatus", "source/cellular_3gpp_urc_handler.c:_regStatusGenerateEvent"]}
{"id": "C38", "title": "A registration line of one domain leaves the other domain's status untouched", "statement": "+CREG never changes the packet-switched status or reject fields; +CGREG/+CEREG never change the circuit-switched ones; reject type/cause are recorded only while the domain is 'denied'.", "quantifier": "every payload, every prior state", "why_tests_cant": "All state/payload pairs.", "anchors": ["source/cellular_3gpp_urc_handler.c:_parseRegStatusInRegStatusParsing", "source/cellular_3gpp_urc_handler.c:_parseRejectTypeInRegStatus"]}
{"id": "C39", "title": "A registration line that is rejected changes nothing", "statement": "If parsing a registration line reports an error, no recorded field has changed and no event was delivered.", "quantifier": "every malformed payload", "why_tests_cant": "Error position is arbitrary.", "anchors": ["source/cellular_3gpp_urc_handler.c:_Cellular_ParseRegStatus"]}
{"id": "C40", "title": "Deregistration clears the location information", "statement": "After a line reporting a not-registered status, area code, tracking-area code, cell id, RAT and routing area are all reset unless the same line provides them.", "quantifier": "every payload, every prior state", "why_tests_cant": "All prior states.", "anchors": ["source/cellular_3gpp_api.c:_Cellular_InitAtData", "source/cellular_3gpp_urc_handler.c:_parseRegStatusInRegStatusParsing"]}
{"id": "C41", "title": "Socket slots: unique handles, exact capacity, reusable", "statement": "For every history of socket creations and removals, live sockets occupy distinct slots, a creation succeeds exactly when fewer than 12 sockets are live and memory is available, a new socket has fresh default state with the requested parameters, and a removed slot can be reused.", "quantifier": "every history of create/remove/set-option operations and allocation outcomes", "why_tests_cant": "Unbounded histories.", "anchors": ["source/cellular_common.c:_Cellular_CreateSocketData", "source/cellular_common.c:_Cellular_RemoveSocketData", "source/cellular_common_api.c:Cellular_CommonCreateSocket"]}
{"id": "C42", "title": "Removing a socket only affects that socket", "statement": "Removing a handle that is live removes exactly that socket; a handle not in the table is reported as BAD_PARAMETER and nothing changes.", "quantifier": "every table state and handle", "why_tests_cant": "Unbounded histories.", "anchors": ["source/cellular_common.c:_Cellular_RemoveSocketData"]}
{"id": "C43", "title": "Concurrent socket creation gives distinct sockets", "statement": "Two threads creating sockets concurrently obtain distinct slots and both sockets stay in the table.", "quantifier": "every interleaving of two creations", "why_tests_cant": "Race window of a few instructions.", "anchors": ["source/cellular_common.c:_Cellular_CreateSocketData"]}
{"id": "C44", "title": "Socket options are applied exactly when legal", "statement": "Setting an option changes exactly the addressed field and only when level, length and (for PDN context id and local port) the 'allocated' state are right; otherwise an error is returned and the socket is unchanged.", "quantifier": "every socket state, option, value and length", "why_tests_cant": "Full product space.", "anchors": ["source/cellular_common_api.c:Cellular_CommonSocketSetSockOpt", "source/cellular_common_api.c:_socketSetSockOptLevelTransport"]}
{"id": "C45", "title": "A socket's PDN context id is always valid", "statement": "The PDN context id of every live socket is always in the supported range 1..16.", "quantifier": "every history of creations and option settings", "why_tests_cant": "Histories.", "anchors": ["source/cellular_common_api.c:Cellular_CommonCreateSocket", "source/cellular_common_api.c:_socketSetSockOptLevelTransport"]}
{"id": "C46", "title": "Initialisation is all-or-nothing", "statement": "For every combination of allocation, mutex, queue, event-group, thread and comm-open failures, initialisation either succeeds with the library open, or fails with every resource it created released exactly once and the context slot free again.", "quantifier": "every combination of resource outcomes", "why_tests_cant": "Exponentially many failure combinations.", "anchors": ["source/cellular_common.c:_Cellular_LibInit", "source/cellular_common.c:libOpen", "source/cellular_pktio.c:_Cellular_PktioInit"]}
{"id": "C47", "title": "Cleanup releases everything and the library can be initialised again", "statement": "After cleanup every resource acquired by initialisation and every socket is released exactly once, no API call is accepted, and a new initialisation behaves like the first one.", "quantifier": "every history init/use/cleanup", "why_tests_cant": "Unbounded histories.", "anchors": ["source/cellular_common.c:_Cellular_LibCleanup", "source/cellular_common.c:libClose"]}
{"id": "C48", "title": "APIs are rejected unless the library is open", "statement": "API calls are accepted exactly when the library has been opened and is neither shut down nor closing; a NULL handle gives INVALID_HANDLE.", "quantifier": "every library state", "why_tests_cant": "All flag combinations along all histories.", "anchors": ["source/cellular_common.c:_Cellular_CheckLibraryStatus"]}
{"id": "C49", "title": "A failed Cellular_CommonInit leaves no usable stale handle", "statement": "When Cellular_CommonInit fails, the caller's handle does not designate released memory.", "quantifier": "every failure point including module port failures", "why_tests_cant": "Failure-point dependent.", "anchors": ["source/cellular_common_api.c:Cellular_CommonInit", "source/cellular_common.c:_Cellular_LibInit"]}
{"id": "C50", "title": "No use of the context after it has been released", "statement": "For every schedule of the reader thread and the thread doing cleanup, the reader never touches the context after cleanup released it.", "quantifier": "every schedule", "why_tests_cant": "Two-thread race in a window of a few instructions.", "anchors": ["source/cellular_pktio.c:_pktioReadThread", "source/cellular_pktio.c:_Cellular_PktioShutdown", "source/cellular_common.c:_Cellular_LibCleanup"]}
{"id": "C51", "title": "CSQ conversion follows the standard table", "statement": "For every CSQ value: 0..31 map to -113..-51 dBm in steps of 2, 99 maps to 'invalid', everything else is rejected leaving the output unchanged; the BER table maps 0..7 (99 = invalid) likewise and never indexes out of the table.", "quantifier": "every int16 value", "why_tests_cant": "65536 values per function; and no out-of-bounds index for any.", "anchors": ["source/cellular_common.c:_Cellular_ConvertCsqSignalRssi", "source/cellular_common.c:_Cellular_ConvertCsqSignalBer"]}
{"id": "C52", "title": "Signal bars are monotone in signal strength", "statement": "For every RAT and every pair of signal levels, a stronger level never gets fewer bars, bars are 1..5 for levels up to 0 dBm, and unsupported RATs report an error with 'invalid' bars.", "quantifier": "every RAT and every int16 level", "why_tests_cant": "All pairs.", "anchors": ["source/cellular_common.c:_Cellular_ComputeSignalBars", "source/cellular_common.c:_getSignalBars"]}
{"id": "C53", "title": "An invalid signal value never shows as signal bars", "statement": "If the modem reports no valid signal (CELLULAR_INVALID_SIGNAL_VALUE), the computed bars are 'invalid'.", "quantifier": "every RAT", "why_tests_cant": "Interaction of sentinel value and threshold table.", "anchors": ["source/cellular_common.c:_Cellular_ComputeSignalBars"]}
{"id": "C54", "title": "PSM timers are decoded as 3GPP TS 24.008 prescribes", "statement": "For every 8-bit binary timer string, the T3412/T3324 decoders return value*unit for the units the standard defines and 0xFFFFFFFF for 'deactivated', and reject the reserved units.", "quantifier": "every timer string", "why_tests_cant": "256 codes plus malformed strings.", "anchors": ["source/cellular_3gpp_api.c:parseT3412TimerValue", "source/cellular_3gpp_api.c:parseT3324TimerValue"]}
{"id": "C55", "title": "PSM settings are sent as standard-conforming binary codes", "statement": "Cellular_SetPsmSettings sends AT+CPSMS=<mode>,<4 fields> where each field is empty when 0 and otherwise the 8-bit binary rendering of the value; the command always fits its buffer.", "quantifier": "every settings structure", "why_tests_cant": "All 32-bit field values.", "anchors": ["source/cellular_3gpp_api.c:Cellular_CommonSetPsmSettings", "source/cellular_3gpp_api.c:appendBinaryPattern"]}
{"id": "C56", "title": "PSM settings read from the modem can be written back unchanged", "statement": "Writing back the settings obtained by Cellular_GetPsmSettings configures the same timers.", "quantifier": "every modem response", "why_tests_cant": "All timer codes.", "anchors": ["source/cellular_3gpp_api.c:Cellular_CommonGetPsmSettings", "source/cellular_3gpp_api.c:Cellular_CommonSetPsmSettings"]}
{"id": "C57", "title": "PSM response parsing reports malformed fields", "statement": "Cellular_GetPsmSettings reports success only if every field of the response was parsed.", "quantifier": "every response line", "why_tests_cant": "Position of the malformed field.", "anchors": ["source/cellular_3gpp_api.c:_Cellular_RecvFuncGetPsmSettings"]}
{"id": "C58", "title": "eDRX settings list is never overrun", "statement": "Parsing AT+CEDRXS? responses never stores more entries than the list holds.", "quantifier": "every number of response lines", "why_tests_cant": "Number of lines is chosen by the modem.", "anchors": ["source/cellular_3gpp_api.c:_Cellular_RecvFuncGetEidrxSettings"]}
{"id": "C59", "title": "SIM lock state is the one the modem reported", "statement": "For every standard +CPIN response, the reported lock state is the corresponding enumerator; unknown codes map to UNKNOWN.", "quantifier": "every +CPIN response line", "why_tests_cant": "Interaction of white-space removal and code matching.", "anchors": ["source/cellular_3gpp_api.c:_Cellular_RecvFuncGetSimLockStatus", "source/cellular_3gpp_api.c:_getSimLockState"]}
{"id": "C60", "title": "Home PLMN decoding inverts the standard BCD nibble swap", "statement": "For every 3-digit MCC and 2- or 3-digit MNC, the HPLMN record encoding it is decoded to exactly that MCC/MNC; read-error status words are rejected.", "quantifier": "every MCC/MNC", "why_tests_cant": "All digit combinations.", "anchors": ["source/cellular_3gpp_api.c:_parseHplmn", "source/cellular_3gpp_api.c:_Cellular_RecvFuncGetHplmn"]}
{"id": "C61", "title": "Identity strings are copied whole and NUL terminated, or rejected", "statement": "IMEI, IMSI, ICCID, model, manufacturer and firmware strings are either copied completely with a terminator inside the destination or reported as error; the destination is never overrun.", "quantifier": "every response line length", "why_tests_cant": "Length boundary for each field.", "anchors": ["source/cellular_3gpp_api.c:_Cellular_RecvFuncGetImsi", "source/cellular_3gpp_api.c:_Cellular_RecvFuncGetIccid", "source/cellular_3gpp_api.c:_Cellular_RecvFuncGetImei", "source/cellular_3gpp_api.c:_Cellular_RecvFuncGetFirmwareVersion"]}
{"id": "C62", "title": "The IP address buffer is always NUL terminated", "statement": "When Cellular_GetIPAddress succeeds, the caller's buffer holds a NUL-terminated string equal to the modem's address, for every buffer length.", "quantifier": "every response and buffer length", "why_tests_cant": "Boundary and 16-bit truncation of the length.", "anchors": ["source/cellular_3gpp_api.c:Cellular_CommonGetIPAddress", "source/cellular_3gpp_api.c:_Cellular_RecvFuncIpAddress"]}
{"id": "C63", "title": "Network time is parsed exactly or rejected", "statement": "For every well-formed +CCLK response the returned time has the year, month, day, hour, minute, second and time zone of the line; malformed responses are rejected.", "quantifier": "every response line", "why_tests_cant": "Positions of separators are arbitrary.", "anchors": ["source/cellular_3gpp_api.c:_parseTimeZoneInfo", "source/cellular_3gpp_api.c:_Cellular_RecvFuncGetNetworkTime"]}
{"id": "C64", "title": "Operator information is parsed exactly", "statement": "For every +COPS response with numeric operator of 5 or 6 digits, mode, format, MCC, MNC and RAT are those of the line; out-of-range values are rejected.", "quantifier": "every response line", "why_tests_cant": "Arbitrary lines.", "anchors": ["source/cellular_3gpp_api.c:_Cellular_RecvFuncUpdateMccMnc", "source/cellular_3gpp_api.c:_parseCops"]}
{"id": "C65", "title": "Service status success implies the status was actually obtained", "statement": "If Cellular_GetServiceStatus returns success, the structure describes an answer of the modem.", "quantifier": "every outcome of the underlying requests", "why_tests_cant": "Failure combinations of several requests.", "anchors": ["source/cellular_3gpp_api.c:Cellular_CommonGetServiceStatus"]}
{"id": "C66", "title": "PDN configuration commands are exact and bounded", "statement": "Cellular_SetPdnConfig sends exactly AT+CGDCONT=<id>,\"<type>\",\"<apn>\" for every valid id (1..16), type and APN, rejects everything else, and the command never exceeds its buffer.", "quantifier": "every id, type and APN", "why_tests_cant": "Full product space.", "anchors": ["source/cellular_3gpp_api.c:Cellular_CommonSetPdnConfig", "source/cellular_common.c:_Cellular_IsValidPdn"]}
{"id": "C67", "title": "Error translation never turns a failure into success", "statement": "Packet-level and AT-level failures are always reported to the API caller as failures, time-outs as TIMEOUT, and only success as success.", "quantifier": "every status value", "why_tests_cant": "Closed enumeration plus out-of-enumeration values.", "anchors": ["source/cellular_common.c:_Cellular_TranslatePktStatus", "source/cellular_common.c:_Cellular_TranslateAtCoreStatus"]}
{"id": "C68", "title": "A request always completes", "statement": "For every schedule in which time advances, a request returns: with the modem's answer or with TIMED_OUT, and it releases the request lock on every path.", "quantifier": "every schedule and modem behaviour", "why_tests_cant": "Liveness/lock-release over all paths.", "anchors": ["source/cellular_pkthandler.c:_Cellular_PktHandler_AtcmdRequestWithCallback"]}
{"id": "C69", "title": "Data of an abandoned transfer is not mistaken for later responses", "statement": "If a data-receive request times out before its payload is complete, the responses of later commands are still parsed as responses.", "quantifier": "every schedule of data transfer and time-out", "why_tests_cant": "History dependent.", "anchors": ["source/cellular_pktio.c:_handleRxDataEvent", "source/cellular_pkthandler.c:_Cellular_TimeoutAtcmdDataRecvRequestWithCallback"]}
{"id": "C70", "title": "Registration query answers and URCs arriving in between are told apart", "statement": "Every line received while a +CREG?/+CGREG?/+CEREG? query is pending is interpreted with the layout it was sent in: <n>,<stat>,... for the query answer and <stat>,... for a URC that arrives in between.", "quantifier": "every line, every prior registration state", "why_tests_cant": "The modem may emit a URC at any moment of a query and field contents are arbitrary.", "anchors": ["source/cellular_3gpp_api.c:regResponseIsUrc", "source/cellular_3gpp_api.c:_Cellular_RecvFuncGetNetworkReg"]}
{"id": "C71", "title": "No API call reaches the modem unless the library is open and its arguments are usable", "statement": "While the library is not open, or is closing or shut down, or the handle is NULL, every 3GPP API function sends nothing, returns an error and leaves the caller's object alone; a NULL output object is BAD_PARAMETER with nothing sent.", "quantifier": "every API function, library state, modem and argument", "why_tests_cant": "Full product of functions, states and arguments; absence of side effects.", "anchors": ["source/cellular_3gpp_api.c:Cellular_CommonGetNetworkTime", "source/cellular_3gpp_api.c:Cellular_CommonGetServiceStatus", "source/cellular_common.c:_Cellular_CheckLibraryStatus"]}
{"id": "C72", "title": "Radio and eDRX settings commands are exact", "statement": "RfOn/RfOff send exactly AT+CFUN=1 / AT+CFUN=4; Cellular_SetEidrxSettings sends exactly AT+CEDRXS=<mode>,<rat>,\"<4 bits>\" within its buffer; each is sent once and the result is the modem's.", "quantifier": "every settings structure and modem behaviour", "why_tests_cant": "All field values.", "anchors": ["source/cellular_3gpp_api.c:Cellular_CommonRfOn", "source/cellular_3gpp_api.c:Cellular_CommonRfOff", "source/cellular_3gpp_api.c:Cellular_CommonSetEidrxSettings"]}
{"id": "C73", "title": "API return values are honest about the requests", "statement": "For every modem behaviour, an API function made of several requests stops at the first unanswered one, returns SUCCESS only if the last request it sent was answered, and returns TIMEOUT exactly when the last request got no final result in time.", "quantifier": "every API function and every modem (reacting to the history of requests)", "why_tests_cant": "Every combination of outcomes of up to four requests.", "anchors": ["source/cellular_3gpp_api.c:Cellular_CommonGetModemInfo", "source/cellular_3gpp_api.c:Cellular_CommonGetSimCardInfo", "source/cellular_3gpp_api.c:Cellular_CommonGetRegisteredNetwork"]}
{"id": "C74", "title": "A registered event callback is called with its own context, and not after it was unregistered", "statement": "For every event of the seven callback kinds (network registration, PDN, signal, generic, modem, undefined response, input buffer), the function called is the one registered for that kind, with the context it was registered with, exactly once per event; nothing is called when nothing is registered.", "quantifier": "every schedule of registering threads and the reader thread", "why_tests_cant": "Two-thread races between a NULL check, two reads and two writes.", "anchors": ["source/cellular_common_api.c:Cellular_CommonRegisterUrcNetworkRegistrationEventCallback", "source/cellular_common.c:_Cellular_NetworkRegistrationCallback", "source/cellular_common.c:_Cellular_RegisterUndefinedRespCallback", "source/cellular_common.c:_Cellular_RegisterInputBufferCallback", "source/cellular_pktio.c:_preprocessInputBuffer", "source/cellular_pkthandler.c:_handleUndefinedMessage"]}
{"id": "C75", "title": "Registering a socket callback changes exactly that callback of that socket", "statement": "Registering a data-ready, open or closed callback stores the function and its context in that socket and changes nothing else in any socket; with a closed library or NULL handle it is refused without effect.", "quantifier": "every socket, table state and callback", "why_tests_cant": "Absence of side effects over all states.", "anchors": ["source/cellular_common_api.c:Cellular_CommonSocketRegisterDataReadyCallback", "source/cellular_common_api.c:Cellular_CommonSocketRegisterSocketOpenCallback", "source/cellular_common_api.c:Cellular_CommonSocketRegisterClosedCallback"]}
{"id": "C76", "title": "A line that cannot be classified goes to the undefined-response callback, whose verdict decides", "statement": "Every received line that is neither part of the pending command's response nor a URC is handed to the registered undefined-response callback; if it accepts, reading continues unaffected; if it refuses, or none is registered, the response in progress and buffered input are discarded and reading starts afresh.", "quantifier": "every line, command state and callback verdict", "why_tests_cant": "All lines and all error codes of the callback.", "anchors": ["source/cellular_pkthandler.c:_handleUndefinedMessage", "source/cellular_pktio.c:_handleMsgType"]}
{"id": "C77", "title": "Success of a query means that the modem delivered the information", "statement": "If a query function returns SUCCESS, each query command it sent was answered with a success result code after at least one line of information.", "quantifier": "every query function and every modem", "why_tests_cant": "Any of several requests may be answered by a bare OK.", "anchors": ["source/cellular_3gpp_api.c:_Cellular_RecvFuncGetImei", "source/cellular_3gpp_api.c:_Cellular_RecvFuncGetHplmn", "source/cellular_3gpp_api.c:_Cellular_RecvFuncGetPsmSettings", "source/cellular_3gpp_api.c:Cellular_CommonGetModemInfo"]}
{"id": "C78", "title": "No deadlock: every API call, initialisation and clean-up returns", "statement": "With any number of application threads making any API calls concurrently with each other, with initialisation, clean-up, incoming data and the calls that callbacks make, it never happens that a call in progress can no longer complete: some thread can always continue, and after finitely many steps without new calls or data all calls have returned.", "quantifier": "every number of threads, every set of concurrent calls, every schedule, every callback behaviour", "why_tests_cant": "A deadlock needs one particular interleaving of several threads and four mutexes.", "anchors": ["source/cellular_common.c:libOpen", "source/cellular_common.c:libClose", "source/cellular_common.c:_Cellular_CheckLibraryStatus", "source/cellular_pkthandler.c:_Cellular_PktHandler_AtcmdRequestWithCallback", "source/cellular_pktio.c:_pktioReadThread", "source/cellular_3gpp_urc_handler.c:Cellular_CommonUrcProcessCreg", "source/cellular_3gpp_api.c:Cellular_CommonGetServiceStatus"]}
{"id": "C79", "title": "The response queue is used only while it exists, even when clean-up overtakes requests", "statement": "Whenever a request waits for its result, or the reader delivers one, the response queue exists; it is deleted only when the reader has ended and no request is in progress, exists while the library is open and is gone after clean-up.", "quantifier": "every number of threads and every schedule of requests, reader, initialisation and clean-up", "why_tests_cant": "The window between the library-open check and the use of the queue is a race.", "anchors": ["source/cellular_pkthandler.c:_Cellular_PktHandlerCleanup", "source/cellular_pkthandler.c:_convertAndQueueRespPacket", "source/cellular_pkthandler.c:_Cellular_AtcmdRequestTimeoutWithCallbackRaw", "source/cellular_common.c:libClose"]}
{"id": "C80", "title": "The comm interface is used only between its opening and its closing", "statement": "Commands and data are sent on the comm interface only while it is open; after clean-up it is closed and nothing is sent.", "quantifier": "every number of threads and every schedule of requests and clean-up", "why_tests_cant": "The check of the handle and its use are separate steps; only particular schedules show it.", "anchors": ["source/cellular_pktio.c:_Cellular_PktioSendAtCmd", "source/cellular_pktio.c:_Cellular_PktioSendData", "source/cellular_pktio.c:_pktioReadThread", "source/cellular_pktio.c:_Cellular_PktioShutdown"]}
{"id": "C81", "title": "A request made while the reader is busy in a callback cannot be served, and says so", "statement": "While the reader thread is inside a callback (URC, event or response callback), every request to the modem that is started then, by the callback itself or by any other thread, and returns before the callback does, fails, with TIMEOUT if its command could be transmitted; no response callback is run for it. (Unless an earlier time-out has left its late answer behind, which is C28.)", "quantifier": "every number of threads, every schedule, every modem", "why_tests_cant": "The callback's duration relative to all other threads' steps is arbitrary.", "anchors": ["source/cellular_pkthandler.c:_Cellular_AtcmdRequestTimeoutWithCallbackRaw", "source/cellular_pktio.c:_pktioReadThread", "source/cellular_pktio.c:_handleRxDataEvent"]}
{"id": "C82", "title": "API results do not depend on how the modem's bytes are fragmented or on URCs in between", "statement": "For every API function that talks to the modem: its return value, outputs and the commands it sends are a function of the lines of the modem's answers; the cutting of the byte stream into reads, blank lines, the kind of line terminators and URCs between the lines of the answers are not visible in it.", "quantifier": "every API function, every modem, every byte stream and fragmentation, every URC placement", "why_tests_cant": "Fragmentations and URC placements are unbounded.", "anchors": ["source/cellular_pktio.c:_handleRxDataEvent", "source/cellular_pktio.c:_Cellular_ReadLine", "source/cellular_3gpp_api.c:Cellular_CommonGetRegisteredNetwork", "source/cellular_3gpp_api.c:Cellular_CommonGetServiceStatus", "source/cellular_common_api.c:Cellular_CommonATCommandRaw"]}
{"id": "C83", "title": "Cellular_ATCommandRaw sends exactly the caller's command and returns the callback's verdict on its answer", "statement": "With an open library, a command of at most 200 characters and a prefix where the type needs one, exactly that command is sent once; with an error result code the call fails and the callback is not run; with success the callback is run once on exactly the lines of the answer and its verdict is the result. Otherwise nothing is sent, the call fails and the caller's data is untouched.", "quantifier": "every command, prefix, type, callback and answer", "why_tests_cant": "Arbitrary commands and answers.", "anchors": ["source/cellular_common_api.c:Cellular_CommonATCommandRaw", "source/cellular_pktio.c:_Cellular_PktioSendAtCmd", "source/cellular_pkthandler.c:_convertAndQueueRespPacket"]}
{"id": "C84", "title": "The current access technology is that of the last report", "statement": "After every history of registration reports the module port's query of the current access technology gives the technology of the last report that has one, or 'invalid' when a later report says that the device is not registered.", "quantifier": "every history of registration reports", "why_tests_cant": "Histories are unbounded; data is shared by three report kinds.", "anchors": ["source/cellular_common.c:_Cellular_GetCurrentRat", "source/cellular_3gpp_urc_handler.c:Cellular_CommonUrcProcessCreg"]}
{"id": "C85", "title": "A call returns exactly what the modem's complete answer says", "statement": "With any number of threads and every schedule, if the modem answers every transmitted command in the format the command's type announces (and sends anything else only as URCs), and time-outs strike only transmissions that left nothing behind: every request that returns has the status determined by its arguments, the modem's complete answer and its response callback's verdict; the response callback is called at most once, only on success, with all lines of the answer to its own command in order and no other; no line is taken for an unexpected one; and once the modem has answered completely, a bounded number of reader steps ends the wait. Every call returns at most once.", "quantifier": "every number of threads, every sequence of requests of the five kinds, every schedule, every conforming modem", "why_tests_cant": "Any interleaving of lines, URCs, reader steps and other threads' requests between the lines of one answer.", "anchors": ["source/cellular_pkthandler.c:_Cellular_AtcmdRequestTimeoutWithCallbackRaw", "source/cellular_pkthandler.c:_Cellular_AtcmdDataSend", "source/cellular_pktio.c:_pktioReadThread", "source/cellular_pktio.c:_Cellular_ProcessLine", "source/cellular_pkthandler.c:_Cellular_HandlePacket"]}
{"id": "C86", "title": "Outside a pending request no line is taken for a response", "statement": "Before the first transmission, and from the moment a response is complete until the next command or data is transmitted, whatever the modem sends and whatever calls are made: no line is collected for a response, no response callback is run and no status is posted except those of the response just completed.", "quantifier": "every number of threads, every schedule, every modem (conforming or not)", "why_tests_cant": "The modem's output and the moment it arrives relative to all threads are arbitrary.", "anchors": ["source/cellular_pktio.c:_handleMsgType", "source/cellular_pktio.c:_getMsgType", "source/cellular_pkthandler.c:_Cellular_HandlePacket"]}
{"id": "C87", "title": "Bytes taken by the input-buffer callback vanish from the stream and nothing else does", "statement": "If the port registers an input-buffer callback that recognises complete frames (announcing partial ones with 'need more data' and declining everything else), the other lines of the stream are handled exactly as if the frames had not been there, however the bytes are fragmented; 'need more data' leaves every byte in place for the next read; an error discards the response and the buffered input; a callback that declines everything is invisible.", "quantifier": "every frame recogniser, stream of lines and frames, and fragmentation", "why_tests_cant": "Frames, lines and fragmentation are unbounded and interact.", "anchors": ["source/cellular_pktio.c:_preprocessInputBuffer", "source/cellular_pktio.c:_handleLeftoverBuffer", "source/cellular_pktio.c:_handleRxDataEvent"]}
{"id": "C88", "title": "The data-send prompt callback consumes what it says and the rest is read as lines", "statement": "While a data-send request waits for its prompt, the port's prompt callback is shown the buffered input; what it leaves is read on as lines of the response, 'need more data' keeps every byte for the next read, an error discards the response and the buffered input, and a callback that declines everything is invisible.", "quantifier": "every callback, buffer content, fragmentation and continuation", "why_tests_cant": "Buffer contents and callback behaviours are arbitrary.", "anchors": ["source/cellular_pktio.c:_preprocessLine", "source/cellular_pktio.c:_handleRxDataEvent"]}
{"id": "C89", "title": "Memory obtained while receiving is always returned", "statement": "The receive path never accesses or frees a heap block that is not in use. At every moment it holds one block for the response in progress and one for each line or payload collected for it, nothing when no response is in progress, and nothing after the reader was stopped.", "quantifier": "every byte stream and chunking, every allocator behaviour (addresses may be reused), every interference of other threads on their own blocks, contract-respecting callbacks", "why_tests_cant": "Needs a heap invariant over all histories; tests only see particular streams and one allocator.", "anchors": ["source/cellular_pktio.c:_saveData", "source/cellular_pktio.c:_Cellular_AtResponseNew", "source/cellular_pktio.c:_Cellular_AtResponseFree", "source/cellular_pktio.c:_handleMsgType", "source/cellular_pktio.c:_pktioReadThread", "source/cellular_pkthandler.c:_processUrcPacket"]}
{"id": "C90", "title": "Running out of memory while receiving does no damage", "statement": "If an allocation fails while a response or URC is received, nothing is accessed through NULL and no memory is corrupted: either the program stops at the assertion or the message is lost.", "quantifier": "every byte stream and every moment at which the allocator may fail", "why_tests_cant": "Failure can happen at any allocation of any history.", "anchors": ["source/cellular_pktio.c:_saveData", "source/cellular_pktio.c:_Cellular_AtResponseNew", "source/cellular_pkthandler.c:_processUrcPacket"]}
{"id": "C91", "title": "The answer to one command takes a bounded amount of memory", "statement": "However many lines the modem sends while a command is in flight, the memory the receive path takes for its answer stays below a fixed bound.", "quantifier": "every byte stream, any number of lines", "why_tests_cant": "A bound over unboundedly long streams.", "anchors": ["source/cellular_pktio.c:_saveData", "source/cellular_pktio.c:_Cellular_ReadLine"]}
{"id": "C92", "title": "Parsing an answer never leaves its text", "statement": "When an answer or a registration URC is parsed, only bytes of its own lines (terminator included) are read for the outcome or changed, and only the declared output object is written: whatever the modem sent, wherever the lines lie in the receive buffer and whatever surrounds them, the parse ends, does nothing undefined, and its outcome depends on the text of the lines alone.", "quantifier": "every number of lines, every content and length, every position in the buffer, every surrounding data", "why_tests_cant": "Out-of-bounds accesses depend on content, length and neighbouring bytes; tests cover few combinations and reads past the end often go unnoticed.", "anchors": ["source/cellular_3gpp_api.c:_Cellular_RecvFuncGetNetworkTime", "source/cellular_3gpp_api.c:_Cellular_RecvFuncUpdateMccMnc", "source/cellular_3gpp_api.c:_Cellular_RecvFuncGetEidrxSettings", "source/cellular_3gpp_api.c:_Cellular_RecvFuncGetHplmn", "source/cellular_3gpp_api.c:_Cellular_RecvFuncGetPsmSettings", "source/cellular_3gpp_api.c:_Cellular_RecvFuncGetNetworkReg", "source/cellular_3gpp_urc_handler.c:_Cellular_ParseRegStatus"]}
{"id": "C93", "title": "No received byte is left waiting: wake-ups of the reader are never lost", "statement": "Whatever the interleaving of arriving bytes, receive callbacks and the reader: the reads deliver the bytes of the modem in order; whenever the library is at rest (no callback owed, no event pending, reader asleep) nothing the modem sent is still unread; and everything that arrives is eventually read. The receive callback reports success exactly when the wake-up was recorded.", "quantifier": "every byte stream, every interleaving of arrivals, receive callbacks, reads and a request to stop, every infinite fair schedule", "why_tests_cant": "A lost wake-up needs a particular interleaving of interrupt and thread; liveness is not testable.", "anchors": ["source/cellular_pktio.c:_Cellular_PktRxCallBack", "source/cellular_pktio.c:_pktioReadThread", "source/cellular_pktio.c:_handleRxDataEvent", "source/cellular_pktio.c:_Cellular_ReadLine"]}
{"id": "C94", "title": "Initialisation accepts exactly the arguments it can work with", "statement": "If the place for the handle, the comm interface or one of its four functions, the token table or one of its four tables is missing, Cellular_Init returns INVALID_HANDLE (handle) or BAD_PARAMETER (anything else), acquires and releases nothing, does not write the handle and leaves an open library open; otherwise it goes on to acquire its resources.", "quantifier": "every combination of missing arguments, every state of the library, every interleaving with the reader and the remains of earlier ones", "why_tests_cant": "Absence of side effects in every reachable state and schedule.", "anchors": ["source/cellular_common_api.c:Cellular_CommonInit", "source/cellular_common.c:checkInitParameter", "source/cellular_common.c:_Cellular_LibInit"]}
{"id": "C95", "title": "The text of a command is read only while its call is in progress", "statement": "Whatever diagnostics the port's logging prints, the library reads the command text the caller passed only before the call returns, and never through a NULL pointer.", "quantifier": "every number of threads and every interleaving of requests, time-outs and the reader", "why_tests_cant": "Needs a time-out between two particular loads of the reader thread.", "anchors": ["source/cellular_pkthandler.c:_Cellular_AtcmdRequestTimeoutWithCallbackRaw", "source/cellular_pktio.c:_Cellular_ProcessLine", "source/cellular_pktio.c:_handleMsgType"]}
{"id": "C96", "title": "Token tables given at initialisation stay in force", "statement": "The result-code tables passed to the library at initialisation (success, error and extra success codes) decide how the lines of every later command are judged, for the whole life of the library.", "quantifier": "every configuration, every history of requests, every schedule", "why_tests_cant": "History dependent: a test with a freshly initialised library does not see what earlier requests did to the tables.", "anchors": ["source/cellular_pkthandler.c:_Cellular_AtcmdRequestSuccessToken", "source/cellular_pkthandler.c:_Cellular_TimeoutAtcmdDataSendSuccessToken", "source/cellular_pktio.c:_Cellular_ProcessLine", "source/cellular_common.c:_Cellular_LibInit"]}
{"id": "C97", "title": "A registration report on the wire reaches the registration callback", "statement": "Every registration URC (+CREG, +CGREG, +CEREG) the modem sends is recorded and, if it changes the status of its domain, reported to the registered callback exactly once and in order, no matter how its bytes are fragmented and which other commands are in progress.", "quantifier": "every byte stream, every fragmentation, every history of other commands, every URC table", "why_tests_cant": "Spans the reader, the packet handler and the URC handlers for all fragmentations.", "anchors": ["source/cellular_pktio.c:_handleRxDataEvent", "source/cellular_pkthandler.c:_processUrcPacket", "source/cellular_3gpp_urc_handler.c:_Cellular_ParseRegStatus", "source/cellular_3gpp_urc_handler.c:Cellular_CommonUrcProcessCreg"]}
{"id": "C98", "title": "Registration data seen by applications is of one moment and never goes back", "statement": "With any number of threads asking for the service status or the current technology while registration URCs and query answers are being recorded: every status returned, and everything the registration callback is told, shows all members as they were after a whole number of messages (never a mixture of an old and a new report); a call returns the data of a moment within the call, the callback the data after the message it reports; and no observation shows an older moment than one made before it, by whichever thread.", "quantifier": "every number of threads, sequence of messages and interleaving of single loads and stores", "why_tests_cant": "Torn reads appear only under particular interleavings of single memory accesses.", "anchors": ["source/cellular_3gpp_urc_handler.c:_Cellular_ParseRegStatus", "source/cellular_3gpp_urc_handler.c:Cellular_CommonUrcProcessCreg", "source/cellular_3gpp_api.c:atcmdQueryRegStatus", "source/cellular_3gpp_api.c:_Cellular_RecvFuncGetNetworkReg", "source/cellular_common.c:_Cellular_GetCurrentRat"]}
{"id": "C99", "title": "Calls return what the modem's bytes say", "statement": "Threads, reader and comm interface together: as long as the modem answers in the format a command announces and no answer is cut off by a time-out, every call returns exactly the status its request and the bytes the modem sent in answer determine, its response callback reads exactly the lines of the answer out of the receive buffer, each call returns at most once, no action has undefined behaviour, and no complete answer is lost, whatever the pieces in which the bytes are delivered and wherever the threads are interrupted.", "quantifier": "every number of threads, every interleaving of requests, reader and deliveries, every fragmentation of the bytes, every answer in the announced format", "why_tests_cant": "Interleavings and fragmentations multiply; a test fixes one of each.", "anchors": ["source/cellular_pktio.c:_handleAllReceived", "source/cellular_pktio.c:_handleRxDataEvent", "source/cellular_pktio.c:_Cellular_ReadLine", "source/cellular_pktio.c:_getNextLine", "source/cellular_pkthandler.c:_Cellular_AtcmdRequestTimeoutWithCallbackRaw", "source/cellular_pkthandler.c:_Cellular_HandlePacket"]}
{"id": "C100", "title": "Whatever bytes arrive, requests stay apart and the receive buffer is respected", "statement": "With any bytes whatever arriving in any pieces while any number of threads make requests (each read finding room in the buffer): no action accesses the receive buffer out of bounds or reads an unterminated line, at most one request is in flight, its tables and callbacks are installed only while it is, every call returns at most once, and when no request is in flight (and none ended in SEND_ERROR) no command is pending. Every line given to a response callback, and every line that decides the status of a call, is a line the modem sent, unaltered and complete (its beginning may be missing only behind bytes thrown away with a refused line); the status is the one that line and the response callback decide; and no call returns OK without one.", "quantifier": "every byte stream, every fragmentation, every interleaving, every number of threads and requests", "why_tests_cant": "Needs all byte streams under all schedules.", "anchors": ["source/cellular_pktio.c:_handleAllReceived", "source/cellular_pktio.c:_handleMsgType", "source/cellular_pktio.c:_Cellular_ReadLine", "source/cellular_pkthandler.c:_Cellular_AtcmdRequestTimeoutWithCallbackRaw"]}
{"id": "C101", "title": "Another thread's calls never change the result of an API call", "statement": "While other threads make calls of their own, as long as the modem answers in the announced format and no answer is cut off by a time-out: every API function that talks to the modem returns the status and fills in the output it would have if its thread were alone with a modem giving the answers that, according to the bytes on the wire, were given to its own requests; of those answers its thread sees exactly what the modem said.", "quantifier": "every API function with every argument, every number of threads, every interleaving, every fragmentation, every answer in the announced format", "why_tests_cant": "Cross-talk needs particular interleavings of several threads' requests with fragments of answers.", "anchors": ["source/cellular_3gpp_api.c:Cellular_CommonGetRegisteredNetwork", "source/cellular_3gpp_api.c:Cellular_CommonGetSimCardInfo", "source/cellular_3gpp_api.c:Cellular_CommonGetServiceStatus", "source/cellular_3gpp_api.c:Cellular_CommonGetModemInfo", "source/cellular_pkthandler.c:_Cellular_AtcmdRequestTimeoutWithCallbackRaw", "source/cellular_pktio.c:_handleAllReceived"]}
{"id": "C102", "title": "A complete answer is always taken, without waiting for a time-out", "statement": "In every infinite execution on bytes in which the modem answers in the announced format, the receive buffer has room for each read, reads deliver, and a reader with something to do and threads that can act do act: whenever the modem has sent the complete answer to a command (or to data) a thread waits for, that thread's wait ends by taking the answer, never by a time-out; and the call (a call without data, or in its data phase) returns with the status the answer and its response callback determine. This holds however the bytes are cut into reads, whatever the modem sends besides and however many other threads make requests.", "quantifier": "every infinite execution: every schedule, every fragmentation, every number of threads and requests", "why_tests_cant": "Liveness: no finite test shows that a wait ends in every fair schedule.", "anchors": ["source/cellular_pkthandler.c:_Cellular_AtcmdRequestTimeoutWithCallbackRaw", "source/cellular_pkthandler.c:_Cellular_DataSendWithTimeoutDelayRaw", "source/cellular_pktio.c:_pktioReadThread", "source/cellular_pktio.c:_handleAllReceived", "source/cellular_pktio.c:_Cellular_ReadLine"]}
{"id": "C103", "title": "An answer that arrives while the reader sleeps still reaches its call", "statement": "The reader thread sleeps and is woken by the comm interface's receive callback. Whenever everything is quiet (no callback owed, no event pending, the reader asleep), no received byte and no line is left unprocessed and every thread whose answer the modem has sent completely can take it. In every infinite execution in which the comm interface calls the callback it owes, the platform accepts its events, and the reader and the threads are scheduled: a thread that waits for a transmission whose answer the modem has sent completely takes that answer, without a time-out, and its call returns with the status that the answer determines; whenever the bytes arrive, before, while or after the reader goes to sleep.", "quantifier": "every infinite execution with a conforming modem: every schedule of threads, reader, interrupts and wake-ups, every fragmentation", "why_tests_cant": "A lost wake-up needs an interrupt at a particular moment between two actions of the reader; liveness cannot be tested.", "anchors": ["source/cellular_pktio.c:_Cellular_PktRxCallBack", "source/cellular_pktio.c:_pktioReadThread", "source/cellular_pktio.c:_Cellular_ReadLine", "source/cellular_pktio.c:_handleRxDataEvent", "source/cellular_pkthandler.c:_Cellular_AtcmdRequestWithCallback"]}
{"id": "C104", "title": "Announced payloads are cut exactly, even while threads start and end requests", "statement": "With an input-buffer callback registered by the port or none, and data prefix and data-send prefix callbacks installed and taken away by requests of any number of threads while the reader copies the callback pointer, releases the lock and calls the callback: whatever bytes arrive in whatever pieces, as long as callbacks announce data only behind a complete line (or text they make one by overwriting the byte behind it) that the data command in flight expects, replace a prompt by a line only where there is room, edit nothing else, the input-buffer callback takes no more than it is shown and leaves no line end in front, and no request begins or ends between an announcement and the reader's look at its line, no action has undefined behaviour; the byte stream is cut into lines, prompts, pieces taken by the input-buffer callback, which appear nowhere else, and payloads of exactly the announced lengths, whatever bytes the payloads consist of; the responses given to response callbacks consist of these lines (for a prompt the line its callback made of it) and payloads, unchanged and in order, each announcing line with its payload right behind it; left out are only lines that belong to no response and responses given to no callback; nothing is lost unless a handler refuses a line; and a prefix callback runs only while the request of the right kind that supplied it is in progress, and is called, with all bytes not cut yet, whenever the reader has bytes to look at then.", "quantifier": "every byte stream, every fragmentation, every interleaving of any number of threads with the reader, every input-buffer, data prefix and data-send prefix callback", "why_tests_cant": "Needs all byte streams and fragmentations under all interleavings of two threads around an unlocked callback.", "anchors": ["source/cellular_pktio.c:_preprocessInputBuffer", "source/cellular_pktio.c:_preprocessLine", "source/cellular_pktio.c:_handleCallbackResult", "source/cellular_pktio.c:_handleDataResult", "source/cellular_pktio.c:_handleData", "source/cellular_pkthandler.c:_Cellular_TimeoutAtcmdDataRecvRequestWithCallback", "source/cellular_pkthandler.c:_Cellular_AtcmdDataSend"]}
