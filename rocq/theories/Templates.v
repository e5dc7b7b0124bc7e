(** * Templates: the five files of /repo/templates/htmlbook, byte for byte, under the names
    that /repo/src/backends/htmls.rs 32-40 gives them *)
From Verif Require Import Base World Location Token Meta Inline Block Asg Json Html Tera.
Local Open Scope char_scope.
Local Open Scope nat_scope.

(** templates/htmlbook/htmlbook.html.tera *)
Definition htmlbook_source : bytes := bs "{% import ""inline.html.tera"" as inline_macros %}
{% import ""block.html.tera"" as block_macros %}
<!DOCTYPE html>
<html lang=""en"">

<head>
    <meta charset=""UTF-8"">
    <meta name=""viewport"" content=""width=device-width, initial-scale=1"">
    <title>{%- if header %}
        {%- for inline in header.title %}
        {{- inline_macros::process_inline(inline=inline) -}}
        {% endfor -%}
        {% endif -%}</title>
</head>

<body>{% for block in blocks %}
    {{ block_macros::process_block(block=block,skip_tag=false) -}}
{% endfor %}
</body>

</html>
".

(** templates/htmlbook/block.html.tera *)
Definition block_source : bytes := bs "{#-

Tera doesn't seem to support calling back and forth macros in recursion, so
unfortunately our block (and inline, for that matter) processing all has to be
done on a kind of `match`-like check, though as it also doesn't support a
`match` (to be fair: I don't know of many templating languages that do), we get
a long if-else chain. Perhaps there is a smarter way to do this, but for now,
this should work.

-#}
{%- import ""inline.html.tera"" as inline_macros -%}
{%- import ""leafblocks.html.tera"" as leaf_block_macros -%}
{%- import ""tables.html.tera"" as table_macros -%}
{%- macro process_block(block, skip_tag) -%}
{%- set local_skip_tag = false -%}
{#- Handle breaks separately; makes the logic easier -#}
{%- if block.name in [""paragraph"", ""listing"", ""verse"", ""pass"", ""literal""] %}
    {{ leaf_block_macros::process_leaf_block(block=block) }}
{%- elif block.name == ""table"" -%}
    {{ table_macros::process_table(block=block) }}
{%- else -%}
{%- if block.name == ""break""-%}
    {% if block.variant == ""page"" %}
    <div style=""page-break-after: always;""></div>
    {% elif block.variant == ""thematic"" %}
    <hr />
    {%- endif -%}
{%- else -%}
{%- if block.name == ""section"" -%}
<section data-type=""sect{{block.level}}""
        {%- if block.metadata.roles %} class=""{{ block.metadata.roles | join(sep="" "")}}"" {%- endif -%}
        {%- if block.metadata.attributes.id %} id=""{{ block.metadata.attributes.id }}"" {%- endif -%}>
    {%- elif block.name == ""dlist"" -%}
    {%- set tag = ""dl"" -%}
    {%- elif block.name == ""list"" -%}
    {%- if block.variant == ""ordered"" -%}
    {%- set tag = ""ol"" -%}
    {%- elif block.variant == ""unordered"" -%}
    {%- set tag = ""ul"" -%}
    {%- endif -%}
    {%- elif block.name == ""open"" -%}
    {%- set tag = ""div"" -%}
    {%- elif block.name == ""listItem"" -%}
    {%- set tag = ""li"" -%}
    {%- elif block.name == ""dlistItem"" -%}
        {#- just handle the terms here-#}
        {%- if block.terms %}
        <dt>{%- for inline in block.terms -%}
            {{- inline_macros::process_inline(inline=inline) -}}
        {%- endfor -%}</dt>
        {% endif -%}
    {%- set tag = ""dd"" -%}
    {% elif block.name == ""admonition"" -%}
    {%- set tag = ""div"" -%}
    {%- set data_type = block.variant -%}
    {%- set local_skip_tag = true -%}
    {% elif block.name == ""example"" -%}
    {%- set tag = ""div"" -%}
    {% elif block.name == ""quote"" -%}
    {%- set tag = ""blockquote"" -%}
    {% elif block.name == ""image"" -%}
    {%- set tag = ""figure"" -%}
        {%- if block.metadata.attributes.positional_1 -%}
        {%- set alt_text = block.metadata.attributes.positional_1 -%}
        {%- endif -%}
        {%- if block.metadata.attributes.id -%}
        {%- set id = block.metadata.attributes.id -%}
        {%- endif -%}
    {% elif block.name == ""sidebar"" -%}
        {%- set tag = ""aside"" -%}
        {%- set data_type = ""sidebar"" -%}
    {% else %}
    {%- set tag = ""UNHANDLED"" -%}
    {%- endif %}
        {%- if tag and not skip_tag -%}<{{tag}}
    {%- if block.metadata.roles and not block.name==""section"" %} class=""{{ block.metadata.roles | join(sep="" "")}}"" {%- endif -%}
    {%- if code_language %} data-code-language=""{{ code_language }}"" {%- endif -%}
    {%- if id %} id=""{{ id }}"" {%- endif -%}
    {%- if data_type %} data-type=""{{ data_type }}""{%- endif -%}>{%- endif -%}
        {%- if block.title -%}
            {%- if block.name in [""example"", ""sidebar""]-%}
                {%- set title_heading_level = 5 -%}
            {%- else -%}
                {%- set title_heading_level = 1 -%}
            {%- endif %}
        <h{{title_heading_level}}>{%- for inline in block.title -%}{{- inline_macros::process_inline(inline=inline) -}}
        {%- endfor -%}</h{{title_heading_level}}>
        {% endif -%}
        {%- if block.name == ""image"" %}
        <img src=""{{block.target}}""{%- if alt_text %} alt=""{{alt_text}}""{%- endif -%} />
        {%- if block.caption %}
        <figcaption>{%- for inline in block.caption -%}
            {{- inline_macros::process_inline(inline=inline) -}}
            {%- endfor -%}</figcaption>
        {%- endif %}
    {% endif -%}
        {%- if block.name == ""list"" or block.name == ""dlist"" -%}
        {% for item in block.items -%}
        {{ self::process_block(block=item, skip_tag=local_skip_tag) }}
        {%- endfor -%}
        {% elif block.principal -%}
        <p>{%- for inline in block.principal -%}
            {{- inline_macros::process_inline(inline=inline) -}}
            {%- endfor -%}</p>
        {%- else -%}
        {% if block.inlines %}
        {%- for inline in block.inlines -%}
        {{- inline_macros::process_inline(inline=inline) -}}
        {%- endfor -%}
        {%- endif -%}
        {%- endif -%}
        {%- if block.blocks and block.name != ""section"" %}
        {%- for child_block in block.blocks %}
        {{- self::process_block(block=child_block, skip_tag=local_skip_tag )-}}
        {%- endfor -%}
        {% endif -%}
    {%- if block.metadata.attributes.attribution -%}
    <p data-type=""attribution"">{{block.metadata.attributes.attribution}}
        {%- if block.metadata.attributes.citation -%}, {{block.metadata.attributes.citation}}
        {%- endif -%}
    </p>
    {%- endif -%}
    {%- if tag and not skip_tag -%}</{{tag}}>{%- endif -%}
    {% if block.name == ""section"" %}
    {% if block.blocks -%}
    {% for child_block in block.blocks %}
    {{- self::process_block(block=child_block, skip_tag=local_skip_tag) -}}
    {%- endfor -%}
    {%- endif -%}
</section>
{%- endif -%}
{%- endif -%}
{%- endif -%}
{%- endmacro process_block -%}
".

(** templates/htmlbook/leafblocks.html.tera *)
Definition leafblocks_source : bytes := bs "{#- Leaf blocks, which never have child blocks, include:
    Listing,
    Literal, // TK not handling now
    Paragraph,
    Pass,
    Stem, // TK not handling now
    Verse,
    Comment, // Gets thrown away, but convenient
-#}
{%- import ""inline.html.tera"" as inline_macros -%}
{%- macro process_leaf_block(block) -%}
    {% if block.name == ""paragraph"" -%}
    {%- set tag = ""p"" -%}
    {% elif block.name == ""listing"" -%}
    {%- set tag = ""pre"" -%}
        {%- if block.metadata.attributes.language -%}
        {%- set code_language = block.metadata.attributes.language -%}
        {%- endif -%}
    {% elif block.name == ""verse"" -%}
        {%- set tag = ""pre"" -%}
        {%- set data_type = ""verse"" -%}
    {% elif block.name == ""literal"" -%}
        {%- set tag = ""pre"" -%}
    {% elif block.name == ""pass"" -%}
    {%- endif -%}
{%- if tag -%}<{{tag}}
{%- if block.metadata.roles %} class=""{{ block.metadata.roles | join(sep="" "")}}"" {%- endif -%}
{%- if code_language %} data-code-language=""{{ code_language }}"" {%- endif -%}
{%- if id %} id=""{{ id }}"" {%- endif -%}
{%- if data_type %} data-type=""{{ data_type }}""{%- endif -%}>{%- endif -%}
    {% if block.inlines %}
    {%- for inline in block.inlines -%}
    {{- inline_macros::process_inline(inline=inline) -}}
    {%- endfor -%}
    {%- endif -%}
{%- if tag -%}</{{tag}}>{%- endif -%}
{%- endmacro process_leaf_block -%}
".

(** templates/htmlbook/tables.html.tera *)
Definition tables_source : bytes := bs "{%- import ""inline.html.tera"" as inline_macros -%}
{%- macro process_table(block) -%}
{#- Collect Cells into rows; should be save to assume that all tables have a cols attr -#}
{% set cols = block.metadata.attributes.cols | int %}
{%- set body_start = 0 -%}
{%- if ""header"" in block.metadata.options -%}
{%- set header = true -%}
{%- set body_start = cols -%}
{%- endif -%}
    <table>{% if header %}
    <thead>
        {% for idx in range(start=0, end=body_start) -%}
            {%- set cell = block.blocks | nth(n=idx) -%}
                {{ self::process_table_cell(cell=cell, tag=""th"") }}
    {% endfor %}</thead>
    <tbody>
        <tr>
        {%- else -%}
        <tr>
        {%- endif %}
        {% set num_cells = block.blocks | length -%}
        {% for idx in range(start=body_start, end=num_cells) -%}
            {%- set cell = block.blocks | nth(n=idx) -%}
                {{ self::process_table_cell(cell=cell, tag=""td"") -}}
        {% if idx > 0 and (idx + 1) % cols == 0 and idx+1 != num_cells %}
        </tr>
        <tr>{%- endif %}
        {% endfor %}</tr>
    {%- if header %}
    </tbody>{%- endif %}
    </table>
{%- endmacro process_table -%}

{%- macro process_table_cell(cell, tag) -%}
            <{{tag}}>
            {%- if cell.inlines -%}
            {%- for inline in cell.inlines -%}
            {{- inline_macros::process_inline(inline=inline) -}}
            {%- endfor -%}
            {%- endif -%}
            </{{tag}}>
{%- endmacro process_table_cell -%}
".

(** templates/htmlbook/inline.html.tera *)
Definition inline_source : bytes := bs "{%- macro process_inline(inline) -%}
{%- if inline.name == ""linebreak"" -%}
    <br />
{%- else -%}
    {%- if inline.name == ""span"" -%}
        {%- if inline.variant == ""emphasis"" -%}
            {%- set inline_tag = ""em"" -%}
        {%- elif inline.variant == ""mark"" -%}
            {%- set inline_tag = ""span"" -%}
        {%- elif inline.variant == ""superscript"" -%}
            {%- set inline_tag = ""sup"" -%}
        {%- elif inline.variant == ""subscript"" -%}
            {%- set inline_tag = ""sub"" -%}
        {%- elif inline.variant == ""footnote"" -%}
            {%- set inline_tag = ""span"" -%}
            {%- set data_type = ""footnote"" -%}
        {%- else -%}
            {%- set inline_tag = inline.variant -%}
        {%- endif -%}

    {%- elif inline.name == ""ref"" -%}
        {%- set inline_tag = ""a"" -%}
        {%- if inline.variant == ""link"" -%}
            {%- set ref = inline.target -%}
            {%- set target_attr = ""href"" -%}
        {%- elif inline.variant == ""xref"" -%}
            {%- set ref = ""#"" ~ inline.target -%}
            {%- set target_attr = ""href"" -%}
        {%- elif inline.variant == ""image"" -%}
            {%- set inline_tag = ""img"" -%}
            {%- set ref = inline.target -%}
            {%- set self_close = True -%}
            {%- set target_attr = ""src"" -%}
        {%- endif -%}
        {%- set target = target_attr ~ '=""' ~ ref ~ '""' -%}
    {%- endif -%}
{%- if inline_tag -%}<{{inline_tag}}
    {%- if inline.metadata.roles %} class=""{{inline.metadata.roles | join(sep="" "")}}""
    {%- endif -%}
    {%- if data_type %} data-type=""{{data_type}}""
    {%- endif -%}
    {%- if target %} {{target}}
    {%- endif -%}{%-if self_close%} /{%-endif-%}>
{%- endif -%}
    {%- if not self_close -%}
        {#- Handle recursion -#}
            {%- if inline.inlines -%}
                {%- for child in inline.inlines -%}
                    {{- self::process_inline(inline=child) -}}
                {%- endfor -%}
    {%- elif inline.variant -%}
        {%- if inline.variant == ""xref"" or inline.variant == ""link"" -%}
                {{ref}} {#- putting the ref in as text for now-#}
            {%- endif -%}
            {%- elif inline.value -%}
                {{- inline.value -}}
            {%- endif -%}
    {%- if inline_tag -%}</{{inline_tag}}>{%- endif -%}
    {%- endif -%}
{%- endif -%}
{%- endmacro process_inline -%}
".

Definition sources : list (bytes * bytes) :=
  [(bs "htmlbook.html.tera", htmlbook_source);
   (bs "block.html.tera", block_source);
   (bs "leafblocks.html.tera", leafblocks_source);
   (bs "tables.html.tera", tables_source);
   (bs "inline.html.tera", inline_source)].
(** [add_raw_templates] *)
Definition read_library (l : list (bytes * bytes)) : option library :=
  fold_right (fun p r => match read_template (snd p), r with Some t, Some r' => Some ((fst p, t) :: r') | _, _ => None end) (Some []) l.
Definition templates : library := match read_library sources with Some l => l | None => [] end.
(** htmls.rs 15-30 [render_htmlbook], as it is: the templates, read and rendered; the fuel
    bounds the depth of macro calls *)
Definition render_templates (w : world) (fuel : nat) (a : asg) : result bytes :=
  match read_library sources with
  | Some lib => render_template w lib fuel (bs "htmlbook.html.tera") (json_of_asg a)
  | None => Panic
  end.
