*.vo
*.vok
*.vos
*.glob
.*.aux
.*.d
*.cache
rocq/Makefile
rocq/Makefile.conf
rocq/.Makefile.d
.lia.cache
.nia.cache
