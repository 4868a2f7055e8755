{"id": "C01", "title": "Unpack decodes unsigned signals according to the DBC bit layout", "statement": "After calling the generated Unpack function on a payload, the struct field of an unsigned signal holds exactly the number whose bits sit at the positions the DBC file declares for that signal (Intel: ascending from the start bit; Motorola: start bit is the MSB, descending inside a byte and continuing at bit 7 of the next byte).", "quantifier": "for every payload, every byte order, every start bit and every length 1..64 such that the signal lies inside the frame", "why_tests_cant": "There are 2^(8*DLC) payloads and tens of thousands of (start,length,order) layouts; the shipped tests look at a handful of layouts and never compile the generated expression.", "anchors": ["src/codegen/c-sigprinter.cpp: CSigPrinter::PrintSignalExpr", "src/codegen/c-main-generator.cpp: CiMainGenerator::WriteUnpackBody"]}
{"id": "C02", "title": "Unpack sign-extends signed signals", "statement": "After Unpack, the field of a signed signal holds the two's complement reading of the signal's bits, for the default helper types of dbccodeconf.h.", "quantifier": "for every payload and every signed signal layout that fits into the frame", "why_tests_cant": "The sign extension uses an unsigned shift whose validity depends on the width; tests only try a few widths with a hand-copied helper, not the emitted call.", "anchors": ["src/codegen/c-main-generator.cpp: extend_func_body, CiMainGenerator::WriteUnpackBody, CiMainGenerator::Gen_DbcCodeConf", "src/tests/bitext-test.cpp"]}
{"id": "C03", "title": "Pack places every signal bit at its declared position and nothing else", "statement": "After the generated Pack function (default configuration), bit k of every signal's field is found at the payload position the DBC file declares for bit k, and every payload bit below DLC that belongs to no signal is zero.", "quantifier": "for every struct content, every set of non-overlapping signals that fit into the frame, every previous content of the output buffer", "why_tests_cant": "The claim ranges over all 64-byte buffers, all field values and all layouts; a test samples a few values of one data base.", "anchors": ["src/codegen/c-sigprinter.cpp: CSigPrinter::PrintSignalExpr, CSigPrinter::BuildCConvertExprs, CSigPrinter::AppendToByteLine", "src/codegen/c-main-generator.cpp: CiMainGenerator::PrintPackCommonText"]}
{"id": "C04", "title": "Unpack is a left inverse of Pack", "statement": "Packing a struct whose fields are in the range of their signals and unpacking the produced payload returns the same field values.", "quantifier": "for every message whose signals do not overlap and fit into the frame, for every struct content in range", "why_tests_cant": "Universally quantified over layouts and contents; bug combinations (width above 32 and unaligned) are rare in samples.", "anchors": ["src/codegen/c-sigprinter.cpp: CSigPrinter::PrintSignalExpr", "src/codegen/c-main-generator.cpp: CiMainGenerator::WriteUnpackBody, CiMainGenerator::PrintPackCommonText"]}
{"id": "C05", "title": "Pack after Unpack reproduces the covered payload bits", "statement": "Unpacking a payload and packing the resulting struct gives back a payload that agrees with the original on every bit covered by a signal and is zero on every other bit below DLC.", "quantifier": "for every payload and every message with non-overlapping signals that fit", "why_tests_cant": "Quantifies over all payloads of up to 64 bytes.", "anchors": ["src/codegen/c-sigprinter.cpp: CSigPrinter::PrintSignalExpr", "src/codegen/c-main-generator.cpp: CiMainGenerator::PrintPackCommonText"]}
{"id": "C06", "title": "Changing one signal never disturbs another", "statement": "If two structs differ only in one signal's field, the packed payloads differ only in bits of that signal; if two payloads differ only in bits of one signal, unpacking gives the same value to every signal that does not overlap it.", "quantifier": "for every pair of structs or payloads and every pair of non-overlapping signals of a message", "why_tests_cant": "A non-interference (two-run) property over all values; a test observes single runs.", "anchors": ["src/codegen/c-sigprinter.cpp: CSigPrinter::PrintSignalExpr"]}
{"id": "C07", "title": "Pack result does not depend on the previous buffer content", "statement": "The first DLC bytes written by Pack are a function of the struct only; stale buffer bytes never leak into the frame.", "quantifier": "for every DBC file, every message in it, every two initial buffers and every struct", "why_tests_cant": "Depends on a data-base wide limit computed while scanning; single-message unit tests do not exercise the relation between that limit and each message, and memory is often zero by luck.", "anchors": ["src/codegen/c-main-generator.cpp: CiMainGenerator::PrintPackCommonText, CiMainGenerator::Gen_MainHeader (VALIDATE_DLC)", "src/parser/dbcscanner.cpp: DbcScanner::ParseMessageInfo (maxDlcValue)"]}
{"id": "C08", "title": "Generated code only touches payload bytes below DLC", "statement": "Unpack reads and Pack writes only payload bytes with index below the DLC of the message; bytes at and after DLC are left untouched by Pack.", "quantifier": "for every message the generator emits compilable code for, every buffer", "why_tests_cant": "A memory-safety claim about all generated programs; running one generated program on a large buffer cannot show it.", "anchors": ["src/codegen/c-sigprinter.cpp: CSigPrinter::PrintSignalExpr", "src/codegen/c-main-generator.cpp: CiMainGenerator::PrintPackCommonText"]}
{"id": "C09", "title": "The initial byte value is only visible in bits not covered by signals", "statement": "With a custom INITIAL_BYTE_VALUE, unused bits of the packed frame have that value and signal bits still carry the signals.", "quantifier": "for every initial byte value, every struct content and message", "why_tests_cant": "Quantifies over 256 initial values times all contents; the shipped data only uses 0.", "anchors": ["src/codegen/c-main-generator.cpp: CiMainGenerator::PrintPackCommonText (|=), prt_initialDataByteValueName"]}
{"id": "C10", "title": "A signal that does not fit into the frame makes the generated code uncompilable", "statement": "If a signal occupies a bit outside the DLC bytes of its message, the emitted conversion expressions contain the error text instead of an expression, so the problem cannot go unnoticed.", "quantifier": "for every start bit, length, byte order and DLC", "why_tests_cant": "The bad layouts are an infinite family (start bits are 32-bit numbers); a test checks a few.", "anchors": ["src/codegen/c-sigprinter.cpp: CSigPrinter::PrintSignalExpr", "src/conf-and-limits.h"]}
{"id": "C11", "title": "Building the conversion expressions never accesses memory out of bounds", "statement": "The generator itself stays within its per-byte table whatever layout the DBC file declares.", "quantifier": "for every signal line accepted by the parser and every accepted DLC", "why_tests_cant": "Out-of-bounds vector accesses are undefined behaviour that a passing test run need not reveal.", "anchors": ["src/codegen/c-sigprinter.cpp: CSigPrinter::PrintSignalExpr (to_bytes[bn], ShiftByte)"]}
{"id": "C12", "title": "Array and struct flavours of Pack agree", "statement": "Pack with separate buffers and Pack with a CAN frame struct produce the same data bytes, length, IDE flag and return value.", "quantifier": "for every message and struct content", "why_tests_cant": "The two flavours are alternative texts selected by the preprocessor; a test build contains only one of them.", "anchors": ["src/codegen/c-main-generator.cpp: CiMainGenerator::WritePackStructBody, CiMainGenerator::WritePackArrayBody"]}
{"id": "C13", "title": "Pack and Unpack report the frame's identity", "statement": "Unpack and Pack return the CAN ID of the message; Pack sets the length to its DLC and the IDE flag to 1 exactly for extended frames.", "quantifier": "for every accepted message line", "why_tests_cant": "Ranges over all 32-bit raw identifiers and DLC values.", "anchors": ["src/codegen/c-main-generator.cpp: CiMainGenerator::WriteUnpackBody, CiMainGenerator::WritePackArrayBody", "src/parser/dbclineparser.cpp: DbcLineParser::ParseMessageLine"]}
{"id": "C14", "title": "The field type holds every raw value and is the smallest such type", "statement": "The integer type chosen for a signal's field can represent every raw value of the signal, and no smaller standard type of the same signedness can.", "quantifier": "for every signedness and every length 1..64", "why_tests_cant": "The type is derived through floating point powers and casts; the statement is about all raw values of the signal, not a sampled one.", "anchors": ["src/parser/dbclineparser.cpp: DbcLineParser::GetSigType", "src/helpers/formatter.cpp: PrintType"]}
{"id": "C15", "title": "The physical field type holds every physical value", "statement": "For an integer-scaled signal, the type of the physical field can represent raw*factor+offset for every raw value.", "quantifier": "for every raw value, factor, offset, length and signedness whose physical values fit into 64 bits", "why_tests_cant": "Needs all raw values and all factor/offset pairs.", "anchors": ["src/parser/dbclineparser.cpp: DbcLineParser::GetSigType"]}
{"id": "C16", "title": "Integer scaling macros compute the DBC formula", "statement": "For an integer-scaled signal the fromS macro, evaluated with C arithmetic on the field and cast to the physical type, equals raw*factor+offset.", "quantifier": "for every raw value and every integer factor and offset", "why_tests_cant": "C integer promotions make the result depend on operand types; the deviation appears only for extreme values.", "anchors": ["src/codegen/c-sigprinter.cpp: CSigPrinter::PrintPhysicalToRaw", "src/codegen/c-main-generator.cpp: CiMainGenerator::WriteUnpackBody"]}
{"id": "C17", "title": "toS undoes fromS", "statement": "Converting a raw value of an integer-scaled signal to physical and back returns the raw value.", "quantifier": "for every raw value, factor other than zero, and offset", "why_tests_cant": "All raw values and all factor/offset pairs.", "anchors": ["src/codegen/c-sigprinter.cpp: CSigPrinter::PrintPhysicalToRaw", "src/codegen/c-main-generator.cpp: CiMainGenerator::PrintPackCommonText"]}
{"id": "C18", "title": "Conversion macros of a signal use that signal's own factor and offset", "statement": "The conversion macro that the code of a message calls for a scaled signal is defined with the factor and offset declared for this signal in this message.", "quantifier": "for every data base, every message and scaled signal", "why_tests_cant": "Depends on interactions between several messages of one data base (equal signal names).", "anchors": ["src/codegen/c-main-generator.cpp: CiMainGenerator::Gen_MainHeader (passed_sigs)", "src/codegen/c-sigprinter.cpp: CSigPrinter::PrintPhysicalToRaw"]}
{"id": "C19", "title": "An undisturbed rolling counter never raises roll_error", "statement": "If every frame packed by a sender is received in order, the receiver's roll_error is clear after every frame from the second on, and it is clear after the first when the expected value was initialised accordingly.", "quantifier": "for every number of frames, every counter width and every start value", "why_tests_cant": "A statement about histories of unbounded length and all wrap-around points.", "anchors": ["src/codegen/c-main-generator.cpp: CiMainGenerator::PrintPackCommonText (RollSig), CiMainGenerator::WriteUnpackBody (RollSig)"]}
{"id": "C20", "title": "Lost frames are detected by the rolling counter unless a full counter period is lost", "statement": "After losing k consecutive frames the next received frame has roll_error set exactly when k is not a multiple of 2^width.", "quantifier": "for every k, width, counter state and history before the loss", "why_tests_cant": "Unbounded k and all states.", "anchors": ["src/codegen/c-main-generator.cpp: CiMainGenerator::WriteUnpackBody (roll_error, _expt)"]}
{"id": "C21", "title": "roll_error and csm_error stay set until the user clears them", "statement": "As the generated canmonitorutil.h documents, once set these bits are not cleared automatically by later frames.", "quantifier": "for every sequence of received frames", "why_tests_cant": "A temporal property over frame sequences.", "anchors": ["src/codegen/c-main-generator.cpp: CiMainGenerator::Gen_CanMonUtil, CiMainGenerator::WriteUnpackBody"]}
{"id": "C22", "title": "A frame packed with automatic checksum passes the receiver's checksum check", "statement": "Unpacking a frame produced by Pack with AUTO_CSM never sets csm_error.", "quantifier": "for every user hash function, every message with a checksum signal and every struct content", "why_tests_cant": "Quantifies over all hash functions and contents.", "anchors": ["src/codegen/c-main-generator.cpp: CiMainGenerator::PrintPackCommonText (CsmSig), CiMainGenerator::WriteUnpackBody (csm_error)", "src/codegen/c-sigprinter.cpp: CSigPrinter::BuildCConvertExprs"]}
{"id": "C23", "title": "Frame monitor bookkeeping", "statement": "After n received frames frame_cnt has grown by n modulo 2^32, last_cycle is the tick of the last frame, and dlc_error says whether the last frame was shorter than the DLC.", "quantifier": "for every history of frames, lengths and ticks", "why_tests_cant": "Histories of unbounded length including counter wrap.", "anchors": ["src/codegen/c-main-generator.cpp: CiMainGenerator::WriteUnpackBody"]}
{"id": "C24", "title": "Receive dispatches every mapped identifier to its own Unpack", "statement": "Calling the generated Receive with the CAN ID of a mapped message runs exactly that message's Unpack and returns its ID; with any other ID it runs none, changes nothing and returns 0.", "quantifier": "for every set of mapped messages with distinct IDs and every received ID", "why_tests_cant": "Search trees of every size and all 2^32 identifiers; a test has one tree.", "anchors": ["src/codegen/c-util-generator.cpp: CiUtilGenerator::FillTreeLevel, CiUtilGenerator::PrintSource", "src/codegen/conditional-tree.cpp: ConditionalTree::WriteCode"]}
{"id": "C25", "title": "Every mapped message is reachable in Receive", "statement": "Each message of the receive struct is updated by Receive for some identifier, also when a standard and an extended frame share the same numeric ID.", "quantifier": "for every DBC file", "why_tests_cant": "Needs all combinations of standard/extended identifiers.", "anchors": ["src/codegen/c-util-generator.cpp: CiUtilGenerator::Generate", "src/parser/dbclineparser.cpp: ParseMessageLine (clear_msgid)"]}
{"id": "C26", "title": "Node utilities contain exactly the node's messages", "statement": "With -nodeutils the receive struct of a node lists exactly the non-empty messages with a signal received by the node, and the transmit struct exactly the non-empty messages transmitted by it, ordered by CAN ID.", "quantifier": "for every data base with distinct IDs and every node", "why_tests_cant": "All node/message incidence structures.", "anchors": ["src/app.cpp: CoderApp::GenerateCode", "src/codegen/c-util-generator.cpp: CiUtilGenerator::Generate"]}
{"id": "C27", "title": "Message lines are accepted exactly when DLC and ID are valid", "statement": "A BO_ line is accepted exactly when its DLC is in 1..64 and bits 29 and 30 of its ID are clear; the stored ID is the low 29 bits and the extended flag is bit 31.", "quantifier": "for every message line and every number in the ID and DLC positions", "why_tests_cant": "Numbers are unbounded texts; wrap-around of narrow integer types is only visible for unusual numbers.", "anchors": ["src/parser/dbclineparser.cpp: DbcLineParser::ParseMessageLine"]}
{"id": "C28", "title": "Signals belong to the message they follow", "statement": "After scanning, each accepted signal is stored in the message of the closest preceding message line, and signals after a rejected message line are dropped, never attached to another message.", "quantifier": "for every sequence of lines", "why_tests_cant": "Quantifies over all files.", "anchors": ["src/parser/dbcscanner.cpp: DbcScanner::ParseMessageInfo"]}
{"id": "C29", "title": "The emitted maximum DLC is the maximum over all messages", "statement": "MAX_DLC_VALUE in the generated header is the largest DLC of the messages of the DBC file.", "quantifier": "for every DBC file", "why_tests_cant": "Depends on the order of messages and on what follows the last message; tests only have one file.", "anchors": ["src/parser/dbcscanner.cpp: DbcScanner::ParseMessageInfo", "src/codegen/c-main-generator.cpp: CiMainGenerator::Gen_MainHeader"]}
{"id": "C30", "title": "Attributes, comments and value tables only affect the message they name", "statement": "A CM_, VAL_, BA_ or BO_TX_BU_ entry changes only the message with the given ID; an entry whose ID belongs to no message changes nothing.", "quantifier": "for every file and every ID", "why_tests_cant": "All files with dangling IDs; happy-path tests use existing IDs.", "anchors": ["src/parser/dbcscanner.cpp: find_message, DbcScanner::ParseOtherInfo, DbcScanner::ParseMessageInfo"]}
{"id": "C31", "title": "Value tables reach every signal they name", "statement": "A VAL_ entry for an existing message and signal attaches its definitions to that signal, also when the signal is scaled.", "quantifier": "for every message, signal and value table", "why_tests_cant": "Interaction between signal renaming and table lookup over all signals.", "anchors": ["src/parser/dbcscanner.cpp: DbcScanner::ParseOtherInfo", "src/parser/dbclineparser.cpp: DbcLineParser::ParseSignalLine, DbcLineParser::ParseValTableLine"]}
{"id": "C32", "title": "Checksum annotations are honoured wherever they stand in a comment", "statement": "A comment containing one marker of the form <Checksum:METHOD:OP> makes a simple unsigned signal inside one byte the checksum signal with that method and option, whatever text surrounds the marker.", "quantifier": "for every comment text before and after the marker", "why_tests_cant": "All surrounding texts.", "anchors": ["src/parser/dbcscanner.cpp: DbcScanner::ParseOtherInfo (substr, Checksum)"]}
{"id": "C33", "title": "Scanning keeps all signals and orders them by start bit", "statement": "The stored signal list of a message is a permutation of the accepted signals, ascending in start bit; its receiver list is the duplicate-free union of the signals' receivers.", "quantifier": "for every list of signals, for every sorting routine that satisfies the std::sort contract", "why_tests_cant": "All lists, all admissible orders of equal elements.", "anchors": ["src/parser/dbcscanner.cpp: DbcScanner::AddMessage"]}
{"id": "C34", "title": "Transmitter lists are duplicate-free unions", "statement": "The transmitters of a message are its BO_ transmitter plus the BO_TX_BU_ nodes naming it, each once.", "quantifier": "for every sequence of BO_TX_BU_ entries", "why_tests_cant": "All sequences.", "anchors": ["src/parser/dbcscanner.cpp: DbcScanner::ParseMessageInfo", "src/parser/dbclineparser.cpp: DbcLineParser::ParseMultiTrans"]}
{"id": "C35", "title": "Driver names and value names become valid C identifiers", "statement": "The name derived from any text is empty or a valid C identifier, is unchanged for texts that already are identifiers, and the program refuses a driver name that derives to nothing.", "quantifier": "for every text", "why_tests_cant": "All strings.", "anchors": ["src/helpers/formatter.cpp: make_c_name", "src/options-parser.cpp: OptionsParser::GetOptions"]}
{"id": "C36", "title": "Command line options: last value wins, order is irrelevant", "statement": "The parsed options depend only on, for each valued option, its last occurrence, and for each flag, whether it occurs; reordering option groups with different keys does not change the result; unknown options are ignored.", "quantifier": "for every argument vector", "why_tests_cant": "All argument vectors.", "anchors": ["src/options-parser.cpp: OptionsParser::GetOptions"]}
{"id": "C37", "title": "Without -rw earlier generated files are preserved", "statement": "As the help text says, without -rw each generation goes to a fresh numbered sub-directory, so no existing file is changed.", "quantifier": "for every initial file system and every run", "why_tests_cant": "All file system states and repeated runs.", "anchors": ["src/codegen/fs-creator.cpp: FsCreator::Configure, FsCreator::PrepareDirectory", "src/app.cpp: CoderApp::PrintHelp"]}
{"id": "C38", "title": "The flags control exactly which files are written", "statement": "-noconfig suppresses the two configuration headers, -noinc the canmonitorutil header, -nofmon the fmon source, and no other file; every written file lies in one of the five sub-directories of the output path.", "quantifier": "for every data base, every driver name and every combination of flags", "why_tests_cant": "All combinations with all data bases.", "anchors": ["src/codegen/c-main-generator.cpp: CiMainGenerator::Generate", "src/app.cpp: CoderApp::GenerateCode"]}
{"id": "C39", "title": "Each output file holds exactly the text generated for it", "statement": "The text written to one file never contains text generated for another file, even when a file cannot be opened.", "quantifier": "for every sequence of append and flush operations and every pattern of open failures", "why_tests_cant": "All operation sequences and failure patterns.", "anchors": ["src/codegen/filewriter.cpp: FileWriter::Flush, FileWriter::Append"]}
{"id": "C40", "title": "Generated files of one run are mutually consistent", "statement": "The version guards of the generated sources never fire against the header of the same run, and every Unpack function called by Receive is declared in the included core header.", "quantifier": "for every data base and set of options", "why_tests_cant": "Cross-file property over all data bases.", "anchors": ["src/codegen/c-main-generator.cpp: CiMainGenerator::Gen_MainHeader, CiMainGenerator::Gen_MainSource", "src/codegen/c-util-generator.cpp: CiUtilGenerator::PrintSource", "src/codegen/mon-generator.cpp"]}
{"id": "C41", "title": "Comments of the DBC file stay comments", "statement": "Every line of a message or signal comment is emitted behind // and cannot change the declarations that follow.", "quantifier": "for every comment text", "why_tests_cant": "All texts, including multi-line ones and ones with a trailing backslash.", "anchors": ["src/codegen/c-main-generator.cpp: CiMainGenerator::Gen_MainHeader, CiMainGenerator::WriteSigStructField", "src/parser/dbclineparser.cpp: DbcLineParser::ParseCommentLine"]}
{"id": "C42", "title": "Writing the struct declaration never aborts", "statement": "For every accepted message the header generation terminates normally; in particular the alignment padding is never computed negative.", "quantifier": "for every message and all signal names", "why_tests_cant": "All name lengths; the failing lengths are rare.", "anchors": ["src/codegen/c-main-generator.cpp: CiMainGenerator::WriteSigStructField (pad.insert), CiMainGenerator::Gen_MainHeader (max_sig_name_len)"]}
{"id": "C43", "title": "No emitted source line is shortened", "statement": "Every source line reaches the file in full length.", "quantifier": "for every message and every number of signals sharing a byte", "why_tests_cant": "Needs lines longer than an internal buffer; tests have short lines.", "anchors": ["src/codegen/filewriter.cpp: __print_loc__", "src/codegen/c-sigprinter.cpp: workbuff", "src/helpers/formatter.cpp: StrPrint"]}
{"id": "C44", "title": "Printed factors and offsets are accurate", "statement": "A floating point factor or offset is printed as a C literal that differs from its value by less than 1.05e-9, has at most nine fraction digits, always contains a dot, and is non-zero when the value is non-zero and accepted.", "quantifier": "for every double value", "why_tests_cant": "All doubles.", "anchors": ["src/helpers/formatter.cpp: prt_double", "src/parser/dbclineparser.cpp: ParseSignalLine (MIN_FAC_OFF)"]}
{"id": "C45", "title": "The version in the generated files is the one of the DBC file", "statement": "The version macros carry the two numbers of the last VERSION line of the form VERSION \"a.b\", and 0.0 if there is none.", "quantifier": "for every file and all numbers", "why_tests_cant": "All files and numbers, including those beyond 32 bits.", "anchors": ["src/parser/dbcscanner.cpp: DbcScanner::FindVersion, ParseVersionLine", "src/codegen/c-main-generator.cpp: CiMainGenerator::Gen_MainHeader"]}
{"id": "C46", "title": "Cycle time attributes are attached to their message", "statement": "A GenMsgCycleTime attribute of a message sets the cycle constant of that message; later attributes override earlier ones, other messages are unaffected.", "quantifier": "for every sequence of attribute lines with existing IDs", "why_tests_cant": "All sequences.", "anchors": ["src/parser/dbclineparser.cpp: DbcLineParser::ParseAttributeLine", "src/parser/dbcscanner.cpp: DbcScanner::ParseOtherInfo"]}
{"id": "C47", "title": "Multi-line comments are joined completely", "statement": "The text stored for a comment spread over several lines is the concatenation of its lines with line breaks, without the closing quote and semicolon.", "quantifier": "for every number of lines without quotes whose intermediate lines do not end in a semicolon", "why_tests_cant": "Unbounded number of lines and all texts.", "anchors": ["src/parser/dbclineparser.cpp: DbcLineParser::ParseCommentLine", "src/helpers/formatter.cpp: str_trim"]}
{"id": "C48", "title": "Value table macros carry the table's values", "statement": "For a value table entry the macro named signal_message_description expands to the entry's value; the first of several equal names wins.", "quantifier": "for every value table with values in the 32-bit signed range", "why_tests_cant": "All tables and values.", "anchors": ["src/parser/dbclineparser.cpp: DbcLineParser::ParseValTableLine", "src/codegen/c-main-generator.cpp: CiMainGenerator::Gen_MainHeader (ValDefs)"]}
{"id": "C49", "title": "The output path is combined with exactly one separator", "statement": "With -driverdir the final path is the output path and the driver name joined by exactly one separator; the DBC file name shown in the headers contains no separator.", "quantifier": "for every path and name", "why_tests_cant": "All strings.", "anchors": ["src/app.cpp: CombinePath, ExtractFileName"]}
{"id": "C50", "title": "Struct bit-fields keep the signal value", "statement": "With USE_BITS_SIGNAL, storing any value of the signal's range into the emitted bit-field and reading it back returns the value, so Pack and Unpack behave as without bit-fields.", "quantifier": "for every signal shorter than 8 bits and every value", "why_tests_cant": "All widths and values with both signednesses, in two build configurations.", "anchors": ["src/codegen/c-main-generator.cpp: CiMainGenerator::WriteSigStructField"]}
{"id": "C51", "title": "Signals and messages are read as declared", "statement": "A DBC text that declares messages and signals is read back as these declarations: identifier, frame type, length and name of every message, and start bit, length, byte order, sign, factor, offset, unit, receivers and multiplexing of every signal.", "quantifier": "for every list of declarations, printed as DBC lines, with arbitrary other lines between them", "why_tests_cant": "All numbers, names and combinations of lines.", "anchors": ["src/parser/dbclineparser.cpp: DbcLineParser::ParseSignalLine, ParseMessageLine", "src/parser/dbcscanner.cpp: DbcScanner::ParseMessageInfo"]}
{"id": "C52", "title": "The core header defines the macros of the data base and no others", "statement": "The #define lines of the core header name exactly the version and length macros of the driver, the constants of every message, the entries of all value tables and the conversions of all scaled signals; no macro is defined twice, and macros set before the header keep their meaning.", "quantifier": "for every data base, driver name and set of macros defined before", "why_tests_cant": "All combinations of names, including those where two different items lead to the same name.", "anchors": ["src/codegen/c-main-generator.cpp: CiMainGenerator::Gen_MainHeader", "src/codegen/c-sigprinter.cpp: CSigPrinter::PrintPhysicalToRaw"]}
{"id": "C53", "title": "Declared signals are read and written at their declared bits, from the file to the compiled driver", "statement": "When a DBC file is scanned, the driver generated from it and compiled, Unpack puts into the member of every signal the number that the payload holds at the bits the file declares for it, Pack puts the member's bits there and leaves all other bits clear, and a frame packed by one such program is unpacked by another with the same values.", "quantifier": "for every file of message and signal declarations, every payload, every struct and every pair of programs made from the file", "why_tests_cant": "All files, layouts and payloads, through scanning, generation and compilation at once.", "anchors": ["src/parser/dbcscanner.cpp: DbcScanner::TrimDbcText", "src/parser/dbclineparser.cpp: DbcLineParser::ParseSignalLine", "src/codegen/c-main-generator.cpp: CiMainGenerator::Gen_MainSource"]}
{"id": "C54", "title": "The monitor files declare and define what Unpack calls", "statement": "With monitors switched on, Unpack of a message ends in a call of the monitor hook of this message; the monitor header turns that hook into a call of one function, common to all messages with MONO_FMON and the message's own otherwise; it declares exactly these functions, and the monitor source defines exactly these functions, each without effect. With monitors off nothing is declared or defined.", "quantifier": "for every driver name, data base and set of macros", "why_tests_cant": "All data bases, in three build configurations of two files that are only linked by names.", "anchors": ["src/codegen/c-main-generator.cpp: CiMainGenerator::Gen_FMonHeader, Gen_FMonSource", "src/codegen/c-main-generator.cpp: CiMainGenerator::WriteUnpackBody"]}
{"id": "C55", "title": "The configuration files switch on what is uncommented and nothing else", "statement": "The driver configuration as written defines no macro; uncommenting any set of its seven definitions defines exactly these macros. The common configuration declares the two types of the sign extension with 32 bits and defines no macro; canmonitorutil.h declares the frame monitor with the members the driver uses.", "quantifier": "for every driver name, data base, set of uncommented lines and set of macros", "why_tests_cant": "All 128 configurations for all names, and a text that is meant to be edited by its users.", "anchors": ["src/codegen/c-main-generator.cpp: CiMainGenerator::Gen_ConfigHeader, Gen_CanMonUtil, Gen_DbcCodeConf"]}
{"id": "C56", "title": "Physical values follow the factor and offset written in the file", "statement": "When a DBC file is scanned, the driver generated and compiled with signal conversion on, Unpack stores in the physical member of every scaled signal the number factor * raw + offset, with factor and offset as written in the file, and Pack of the physical values of some raw values sends these raw values; the physical members have the smallest type for their range.", "quantifier": "for every file of message and signal declarations, every payload, every struct of physical values and every pair of programs made from the file", "why_tests_cant": "All scalings, written as integers or with fractions and exponents, through text, double arithmetic, printing and reading of literals and C's conversions.", "anchors": ["src/parser/dbclineparser.cpp: DbcLineParser::ParseSignalLine, GetSigType", "src/codegen/c-sigprinter.cpp: CSigPrinter::PrintPhysicalToRaw", "src/codegen/c-main-generator.cpp: CiMainGenerator::WriteUnpackBody, PrintPackCommonText"]}
{"id": "C57", "title": "The core header declares one struct type and two functions per message, and nothing else", "statement": "After preprocessing, the core header is, for the compiler, a sequence of one struct type per message that has signals, followed by the prototypes of Unpack and Pack of each of them, in extern C braces for C++ only; the source defines exactly the functions with these heads and the function for sign extension.", "quantifier": "for every data base, driver name and set of macros defined before", "why_tests_cant": "All data bases in all build configurations; the prototypes and the definitions are printed by different functions.", "anchors": ["src/codegen/c-main-generator.cpp: CiMainGenerator::Gen_MainHeader", "src/codegen/c-main-generator.cpp: CiMainGenerator::Gen_MainSource"]}
{"id": "C58", "title": "Members of a struct have different names", "statement": "No struct of the core header declares two members of the same name, whatever switches are on.", "quantifier": "for every data base, message and set of macros defined before", "why_tests_cant": "All names of signals, together with the names that the generator derives from them or adds itself.", "anchors": ["src/codegen/c-main-generator.cpp: CiMainGenerator::Gen_MainHeader, WriteSigStructField", "src/parser/dbclineparser.cpp: DbcLineParser::ParseSignalLine"]}
{"id": "C59", "title": "Frames reach the receive structs of the declared receivers", "statement": "When a frame of a message comes to Receive of a node that the file names as receiver of one of its signals, the node's receive struct holds the declared values of all signals of the message afterwards; nothing else in the struct changes, and frames of messages for other nodes change nothing.", "quantifier": "for every DBC file, node, message, frame and content of the receive struct", "why_tests_cant": "It takes the scanner, the selection of messages per node, the search tree and the message functions together, for every file and every frame.", "anchors": ["src/codegen/c-util-generator.cpp: CiUtilGenerator::Generate, CiUtilGenerator::PrintSource", "src/app.cpp: CoderApp::GenerateCode", "src/parser/dbclineparser.cpp: DbcLineParser::ParseSignalLine"]}
{"id": "C60", "title": "A run of the tool leaves programs that fit together and receive what the DBC file declares", "statement": "After a run of the tool on a DBC file, the output directory holds the header and the source of the driver and the receive utilities of the driver or of every node; compiled together, Receive of each node stores the declared values of every frame whose message the file declares for this node.", "quantifier": "for every command line, file system, DBC file, node, configuration of the driver and frame", "why_tests_cant": "It spans the command line, the file system, the scanner, all generators and the compiled code, for every file and every frame at once.", "anchors": ["src/app.cpp: CoderApp::Run, CoderApp::GenerateCode", "src/codegen/fs-creator.cpp: FsCreator::PrepareDirectory", "src/codegen/c-util-generator.cpp: CiUtilGenerator::Generate", "src/codegen/c-main-generator.cpp: CiMainGenerator::Generate"]}
{"id": "C61", "title": "Comparing a signal with an entry of its value table", "statement": "In a unit that includes the core header, comparing the member of a signal with the macro of an entry of its value table gives 1 exactly when the signal has the number of the entry in the DBC file; a signal that one program sets to an entry's macro and sends is equal to the macros with the same number, and to no others, where it is received.", "quantifier": "for every DBC file, signal with a value table, entry, value of the signal and configuration of the driver", "why_tests_cant": "Every number in a table and every value of a signal of every width; the macro's type and the C conversions decide the result.", "anchors": ["src/codegen/c-main-generator.cpp: CiMainGenerator::Gen_MainHeader", "src/parser/dbclineparser.cpp: DbcLineParser::ParseValTableLine", "src/parser/dbcscanner.cpp: DbcScanner::ParseOtherInfo"]}
{"id": "C62", "title": "Identification macros and reported frames have the declared numbers", "statement": "For every message of the DBC file, the macros for length, identifier, kind of identifier and cycle time in the core header have the declared numbers, and Pack reports the declared identifier without its flags, the declared length and the kind of the identifier.", "quantifier": "for every DBC file, message, configuration of the driver and content of the message struct", "why_tests_cant": "All identifiers with and without flags, all lengths and cycle times, and every combination with other messages of the file.", "anchors": ["src/codegen/c-main-generator.cpp: CiMainGenerator::Gen_MainHeader, CiMainGenerator::PrintPackCommonText", "src/parser/dbclineparser.cpp: DbcLineParser::ParseMessageLine, DbcLineParser::ParseAttributeLine"]}
